(** C93, C94: the programs that make calls *)
From Coq Require Import String Ascii List Bool Arith ZArith Lia.
From Verif Require Import Base SpecDaemon SpecAgent Sanitize DaemonAgent SanitizeProofs AgentProofs Props_Daemon.
From Verif Require Import ClientTools SpecClient ClientProofs.
From Verif Require EvalSvc DialogProofs TriggerProofs DaemonPolicy Exec SpecExec Props_Exec Agent Props_Main MainProofs.
Import ListNotations.
Open Scope string_scope.
Open Scope list_scope.
Open Scope Z_scope.

(** * C93: calls made with qrexec-client-vm *)
Lemma at_signs_convert s : at_signs s (convert_target s).
Proof.
  induction s as [|c s IH]; [constructor|]. cbn [convert_target]. destruct (Ascii.eqb_spec c "$") as [->|N].
  - exact (as_dollar _ _ IH).
  - apply as_other; assumption.
Qed.
Lemma at_signs_nul s t : at_signs s t -> has_char NUL s = false -> has_char NUL t = false.
Proof.
  induction 1 as [|s t H IH|c s t N H IH]; [auto| |].
  - cbn [append has_char]. intros E. apply orb_false_iff in E as [_ E]. cbn. apply IH, E.
  - cbn [has_char]. intros E. apply orb_false_iff in E as [E1 E2]. rewrite E1, IH by exact E2. reflexivity.
Qed.
Lemma fits_stake s : fits 64 s (stake 63 s).
Proof.
  destruct (Nat.lt_ge_cases (String.length s) 64) as [L|L].
  - left. split; [exact L|]. apply EvalSvc.stake_all. lia.
  - right. split; [exact L|]. split; [apply stake_exact; lia|]. exists (sdrop 63 s). apply take_drop.
Qed.
Lemma fits_short s t : fits 64 s t -> (String.length t < 64)%nat.
Proof. intros [[H ->]|(H & E & _)]; [exact H|lia]. Qed.
Lemma fits_nul s t : fits 64 s t -> has_char NUL s = false -> has_char NUL t = false.
Proof.
  intros [[H ->]|(H & E & r & ->)]; [auto|]. rewrite has_char_app. intros K. apply orb_false_iff in K as [K _]. exact K.
Qed.
Lemma nuls_zeros n : ClientTools.nuls n = zeros n /\ SpecAgent.nuls n = zeros n.
Proof. induction n as [|n [IH1 IH2]]; [auto|]. cbn. rewrite IH1, IH2. auto. Qed.
Lemma field_padded n s : (0 < n)%nat -> padded n (stake (n - 1) s) (field n s).
Proof.
  intros N. unfold padded, field. cbv zeta. split; [|rewrite (proj1 (nuls_zeros _)); reflexivity].
  destruct (Nat.lt_ge_cases (String.length s) (n - 1)) as [L|L]; [rewrite EvalSvc.stake_all by lia; lia|].
  rewrite stake_exact by lia. lia.
Qed.
Lemma vm_request_sent source target service : let r := vm_request source target service in
  sent (or_else source "") target service (fst r) (snd r).
Proof.
  cbv zeta. unfold vm_request. cbn [fst snd]. replace (160 + Z.of_nat (String.length service) + 1) with (161 + Z.of_nat (String.length service)) by lia.
  econstructor; [apply at_signs_convert|apply fits_stake|apply fits_stake|apply (field_padded 64); lia|apply (field_padded 64); lia|apply (field_padded 32 "SOCKET"); lia].
Qed.

(** What the program does with a command line that is spelled with known options *)
Theorem C93_command_line tty1 tty2 stream argv os ps :
  line true vm_spelled argv os ps ->
  match ps with
  | target :: service :: local =>
      (vm_fine stream os /\ (local <> [] -> times o_socket os = 0%nat) /\
      exists hdr body how,
        vm_main tty1 tty2 stream argv = VAsk (or_else (last_of o_agent os) "/var/run/qubes/qrexec-agent") hdr body how /\
        sent (or_else (last_of o_source os) "") target service hdr body /\
        hw_local how = (match local with [] => None | _ => Some local end) /\
        hw_out how = or_else (last_of o_out os) (match local with [] => tty1 | _ => false end) /\
        hw_err how = or_else (last_of o_err os) tty2 /\
        hw_prefix how = last_of o_prefix os /\
        match last_of o_buffer os with Some t => c_number t (hw_buffer how) | None => hw_buffer how = 0 end /\
        (hw_socket how = true <-> given o_socket os))
      \/ ~ (vm_fine stream os /\ (local <> [] -> times o_socket os = 0%nat)) /\
         exists n, vm_main tty1 tty2 stream argv = VExit n /\ (n = 0 -> In OHelp os)
  | _ => exists n, vm_main tty1 tty2 stream argv = VExit n /\ (n = 0 -> In OHelp os)
  end.
Proof.
  intros L. pose proof (getopt_line true vm_spelled vm_shorts vm_longs vm_code argv os ps (vm_words true) L) as G.
  pose proof (vm_options stream os vm_start) as V. unfold vm_main. rewrite G.
  destruct (options (vm_option stream) (map vm_code os) vm_start) as [v|n].
  2:{ destruct V as (V1 & V2 & V3).
      assert (X : exists m, VExit n = VExit m /\ (m = 0 -> In OHelp os)) by eauto.
      destruct ps as [|target [|service local]]; [exact X|exact X|]. right. split; [|exact X].
      intros [[F1 F2 F3 F4 F5] _]. apply V1. cbn [vm_start v_prefix v_source v_socket held]. split; [lia|]. split; [lia|]. split; [destruct stream; lia|]. auto. }
  cbn [vm_start v_prefix v_source v_socket v_out v_err v_path v_buffer held] in V.
  destruct V as (V1 & V2 & V3 & V4 & V5 & V6 & V7 & V8 & V9 & V10 & V11 & V12).
  assert (X : exists m, VExit 2 = VExit m /\ (m = 0 -> In OHelp os)) by (exists 2; split; [reflexivity|discriminate]).
  destruct ps as [|target [|service local]]; [exact X|exact X|].
  assert (Fine : vm_fine stream os) by (constructor; try lia; auto; destruct stream; lia).
  assert (Sk : v_socket v = true <-> given o_socket os).
  { rewrite V12. clear. induction os as [|o os IH]; cbn [last_of].
    - split; [discriminate|intros (o & x & [] & _)].
    - destruct (last_of o_socket os) as [u|].
      + split; [|reflexivity]. intros _. destruct (proj1 IH eq_refl) as (o' & x & I & E). exists o', x. split; [right; exact I|exact E].
      + destruct (o_socket o) as [u|] eqn:E.
        * split; [|reflexivity]. intros _. exists o, u. split; [left; reflexivity|exact E].
        * split; [discriminate|]. intros (o' & x & [<-|I] & E'); [congruence|]. apply IH. exists o', x. auto. }
  assert (S0 : v_socket v = false -> times o_socket os = 0%nat).
  { intros E. clear - E Sk. assert (N : ~ given o_socket os) by (intros H; apply Sk in H; congruence). clear - N.
    induction os as [|o os IH]; [reflexivity|]. rewrite times_cons. destruct (o_socket o) as [u|] eqn:E.
    - exfalso. apply N. exists o, u. split; [left; reflexivity|exact E].
    - apply IH. intros (o' & x & I & E'). apply N. exists o', x. split; [right; exact I|exact E']. }
  assert (S1 : v_socket v = true -> times o_socket os <> 0%nat).
  { intros E. apply Sk in E as (o & x & I & E). clear - I E. induction os as [|o' os IH]; [destruct I|]. rewrite times_cons.
    destruct I as [<-|I]; [rewrite E; lia|]. specialize (IH I). lia. }
  pose proof (vm_request_sent (v_source v) target service) as R. cbv zeta in R.
  replace (or_else (v_source v) "") with (or_else (last_of o_source os) "") in R by (rewrite V10; destruct (last_of o_source os); reflexivity).
  destruct (vm_request (v_source v) target service) as [hdr body]. cbn [fst snd] in R.
  assert (Ans : forall run, run = match local with [] => None | _ => Some local end ->
    (local <> [] -> times o_socket os = 0%nat) ->
    vm_fine stream os /\ (local <> [] -> times o_socket os = 0%nat) /\
      exists hdr' body' how,
        VAsk (v_path v) hdr body (mkHow run (match v_out v with Some b => b | None => match run with Some _ => false | None => tty1 end end)
           (match v_err v with Some b => b | None => tty2 end) (v_prefix v) (v_buffer v) (v_socket v)) =
          VAsk (or_else (last_of o_agent os) "/var/run/qubes/qrexec-agent") hdr' body' how /\
        sent (or_else (last_of o_source os) "") target service hdr' body' /\
        hw_local how = (match local with [] => None | _ => Some local end) /\
        hw_out how = or_else (last_of o_out os) (match local with [] => tty1 | _ => false end) /\
        hw_err how = or_else (last_of o_err os) tty2 /\
        hw_prefix how = last_of o_prefix os /\
        match last_of o_buffer os with Some t => c_number t (hw_buffer how) | None => hw_buffer how = 0 end /\
        (hw_socket how = true <-> given o_socket os)).
  { intros run -> H. split; [exact Fine|]. split; [exact H|]. eexists hdr, body, _. split; [f_equal; exact V8|].
    split; [exact R|]. cbn [hw_local hw_out hw_err hw_prefix hw_buffer hw_socket].
    split; [reflexivity|]. split; [rewrite V6; destruct (last_of o_out os); [reflexivity|]; destruct local; reflexivity|].
    split; [rewrite V7; destruct (last_of o_err os); reflexivity|].
    split; [rewrite V9; destruct (last_of o_prefix os); reflexivity|]. split; [exact V11|exact Sk]. }
  destruct local as [|p ps].
  - left. apply Ans; [reflexivity|congruence].
  - destruct (v_socket v) eqn:E.
    + right. split; [|exact X]. intros [_ H]. apply S1; [reflexivity|]. apply H. discriminate.
    + left. apply Ans; [reflexivity|]. intros _. apply S0. reflexivity.
Qed.

(** What the agent and the daemon make of it *)
Lemma zeros_length n : String.length (zeros n) = n.
Proof. induction n; cbn; auto. Qed.
Lemma padded_length n s f : padded n s f -> String.length f = n.
Proof. intros [L ->]. rewrite length_app_s, zeros_length. lia. Qed.
Lemma padded_text s f n : padded n s f -> has_char NUL s = false -> text_in f s.
Proof.
  intros [L ->] N. exists (zeros (n - String.length s)). split; [reflexivity|]. split; [exact N|]. left.
  destruct (n - String.length s)%nat as [|k] eqn:E; [lia|]. reflexivity.
Qed.
Lemma sdrop_zeros k n : sdrop k (zeros n) = zeros (n - k).
Proof. revert k. induction n as [|n IH]; intros [|k]; cbn; auto. Qed.
Lemma print_spelled fuel : forall n c, has_char c (Agent.print_nat fuel n) = true -> has_char c "0123456789" = true.
Proof.
  assert (D : forall m c, (m < 10)%nat -> has_char c (str1 (Agent.decimal_digit m)) = true -> has_char c "0123456789" = true).
  { intros m c L. do 10 (destruct m as [|m]; [cbn; rewrite orb_false_r; intros E; apply Ascii.eqb_eq in E as ->; reflexivity|]). lia. }
  induction fuel as [|fuel IH]; intros n c; cbn [Agent.print_nat]; [discriminate|].
  destruct (Nat.ltb_spec n 10); [apply D; assumption|]. rewrite has_char_app. intros E. apply orb_true_iff in E as [E|E].
  - eapply IH, E.
  - eapply D, E. apply Nat.mod_upper_bound. lia.
Qed.
Lemma ident_spelled fd : spelled " " (Agent.socket_ident fd).
Proof.
  intros c H. unfold Agent.socket_ident in H. rewrite has_char_app in H. apply orb_true_iff in H as [H|H].
  - cbn in H. repeat (apply orb_true_iff in H as [H|H]; [apply Ascii.eqb_eq in H as ->; reflexivity|]). discriminate H.
  - apply print_spelled in H. cbn in H. repeat (apply orb_true_iff in H as [H|H]; [apply Ascii.eqb_eq in H as ->; reflexivity|]). discriminate H.
Qed.
Lemma sent_forwarded source target service hdr body fd :
  sent source target service hdr body -> has_char NUL source = false -> has_char NUL target = false ->
  Z.of_nat fd < 2147483648 ->
  fst hdr = 531 /\ snd hdr = 161 + Z.of_nat (String.length service) /\ Exec.zlen body = snd hdr /\
  exists t t' s' fs ft fi, at_signs target t /\ fits 64 t t' /\ fits 64 source s' /\
    String.length fs = 64%nat /\ String.length ft = 64%nat /\ String.length fi = 32%nat /\
    text_in fs s' /\ text_in ft t' /\ request_ident fi (Agent.socket_ident fd) /\
    Agent.write_ident fd body = fs +++ ft +++ fi +++ service +++ str1 NUL.
Proof.
  intros H Ns Nt Sm. destruct H as [t t' s' fs ft fi A F1 F2 P1 P2 P3].
  pose proof (padded_length _ _ _ P1) as L1. pose proof (padded_length _ _ _ P2) as L2. pose proof (padded_length _ _ _ P3) as L3.
  split; [reflexivity|]. split; [reflexivity|].
  split. { unfold Exec.zlen. cbn [snd]. rewrite !length_app_s, L1, L2, L3. cbn [str1 String.length]. lia. }
  pose proof (TriggerProofs.ident_length fd Sm) as IL.
  set (i := Agent.socket_ident fd) in *.
  assert (I7 : (7 <= String.length i)%nat).
  { unfold i, Agent.socket_ident. rewrite length_app_s. cbn [Agent.print_nat].
    assert (1 <= String.length (if (fd <? 10)%nat then str1 (Agent.decimal_digit fd) else Agent.print_nat fd (fd / 10) +++ str1 (Agent.decimal_digit (fd mod 10))))%nat
      by (destruct (fd <? 10)%nat; [|rewrite length_app_s]; cbn [str1 String.length]; lia).
    change (String.length "SOCKET") with 6%nat. lia. }
  exists t, t', s', fs, ft, (i +++ zeros (32 - String.length i)).
  split; [exact A|]. split; [exact F1|]. split; [exact F2|]. split; [exact L1|]. split; [exact L2|].
  split; [rewrite length_app_s, zeros_length; lia|].
  split; [eapply padded_text; [exact P1|]; eapply fits_nul; eassumption|].
  split; [eapply padded_text; [exact P2|]; eapply fits_nul; [exact F1|]; eapply at_signs_nul; eassumption|].
  split. { split; [apply ident_spelled|]. exists (31 - String.length i)%nat. rewrite (proj2 (nuls_zeros (S (31 - String.length i)))). f_equal. f_equal. lia. }
  unfold Agent.write_ident. fold i. cbv zeta.
  assert (E1 : stake 128 (fs +++ ft +++ fi +++ service +++ str1 NUL) = fs +++ ft).
  { rewrite <- (app_assoc_s fs ft). apply stake_app_eq. rewrite length_app_s. lia. }
  rewrite E1. rewrite length_app_s. change (String.length (str1 NUL)) with 1%nat.
  rewrite <- sdrop_sdrop. rewrite <- (app_assoc_s fs ft) at 1. rewrite (sdrop_app_eq (fs +++ ft)) by (rewrite length_app_s; lia).
  destruct P3 as [_ ->]. change (String.length "SOCKET") with 6%nat.
  replace (String.length i + 1)%nat with (6 + (String.length i - 5))%nat by lia.
  rewrite <- sdrop_sdrop. rewrite (app_assoc_s "SOCKET"). rewrite (sdrop_app_eq "SOCKET") by reflexivity.
  replace (zeros (32 - 6)) with (zeros (String.length i - 5) +++ zeros (31 - String.length i)).
  2:{ clear - I7 IL. replace (32 - 6)%nat with ((String.length i - 5) + (31 - String.length i))%nat by lia.
      generalize (String.length i - 5)%nat as a, (31 - String.length i)%nat as b. clear. intros a b. induction a as [|a IH]; [reflexivity|].
      cbn [zeros Nat.add append]. rewrite IH. reflexivity. }
  rewrite !app_assoc_s. rewrite (sdrop_app_eq (zeros (String.length i - 5))) by apply zeros_length.
  replace (32 - String.length i)%nat with (S (31 - String.length i)) by lia. reflexivity.
Qed.
Lemma exists_cleaned extra s : exists r, cleaned extra s r.
Proof.
  induction s as [|c s [r IH]]; [eexists; constructor|].
  destruct (has_char c (name_alphabet +++ extra)) eqn:E; eexists; [apply cl_keep|apply cl_under]; eassumption.
Qed.
Lemma app_split a b c d : a +++ b = c +++ d -> String.length a = String.length c -> a = c /\ b = d.
Proof.
  revert c. induction a as [|x a IH]; intros [|y c] E L; try discriminate L; [auto|].
  cbn [append] in E. injection E as <- E. injection L as L. destruct (IH _ E L) as [-> ->]. auto.
Qed.
Lemma message_name v fs ft fi service rs ta se ident : service_message v 531 (fs +++ ft +++ fi +++ service +++ str1 NUL) rs ta se ident ->
  String.length fs = 64%nat -> String.length ft = 64%nat -> String.length fi = 32%nat -> service <> "" /\ starts "+" service = false.
Proof.
  intros E L1 L2 L3. remember (fs +++ ft +++ fi +++ service +++ str1 NUL) as body eqn:Q. remember 531 as ty eqn:T.
  destruct E as [| |src tgt raw ident name s0 t0 sv sr tg V K1 K2 K3 K4 K5 K6 K7 K8 K9 K10 K11]; [discriminate T|discriminate T|].
  apply app_split in Q as [_ Q]; [|lia]. apply app_split in Q as [_ Q]; [|lia]. apply app_split in Q as [_ Q]; [|lia].
  apply DialogProofs.app_inj_r in Q. subst name. destruct K7 as (N1 & N2 & _). auto.
Qed.
(** A request the daemon can use is forwarded and understood; any other is refused *)
Theorem C93_call_partial source target service hdr body fd :
  sent source target service hdr body ->
  no_nul source -> no_nul target -> no_nul service -> Z.of_nat fd < 2147483648 ->
  (service <> "" /\ starts "+" service = false /\ Z.of_nat (String.length service) < 65000 /\
   exists body' t t' s' source' target' service',
     Agent.handle_trigger_io fd (fst hdr) (snd hdr) body = [Agent.Forwarded (fst hdr) (snd hdr) body'] /\
     handle_message_from_agent 4 (fst hdr) (snd hdr) body' = ServiceCall (Some source') target' service' (Agent.socket_ident fd) /\
     at_signs target t /\ fits 64 t t' /\ cleaned "@:" t' target' /\
     fits 64 source s' /\ cleaned "@:" s' source' /\ cleaned "+" service service') \/
  ((service = "" \/ starts "+" service = true \/ 65000 <= Z.of_nat (String.length service)) /\
   (Agent.handle_trigger_io fd (fst hdr) (snd hdr) body = [Agent.Closed (Z.of_nat fd)] \/
    exists body' raw, Agent.handle_trigger_io fd (fst hdr) (snd hdr) body = [Agent.Forwarded (fst hdr) (snd hdr) body'] /\
     handle_message_from_agent 4 (fst hdr) (snd hdr) body' = RefuseCall raw)).
Proof.
  intros S Ns Nt Nv Sm. destruct (sent_forwarded _ _ _ _ _ fd S Ns Nt Sm) as (H1 & H2 & H3 & t & t' & s' & fs & ft & fi & A & F1 & F2 & L1 & L2 & L3 & T1 & T2 & RI & W).
  assert (St : stake (Z.to_nat (snd hdr)) body = body).
  { apply EvalSvc.stake_all. unfold Exec.zlen in H3. lia. }
  unfold Agent.handle_trigger_io. rewrite H1. change (531 =? Agent.MSG_TRIGGER_SERVICE4) with true. cbn [negb orb].
  rewrite H3, Z.ltb_irrefl, St. unfold MAX_SERVICE_NAME_LEN.
  destruct (Z.ltb_spec (Z.of_nat (String.length service)) 65000) as [Ls|Ls].
  2:{ right. split; [auto|]. left. replace ((snd hdr <=? 160) || (snd hdr >? 160 + 65000))%bool with true by lia. reflexivity. }
  replace ((snd hdr <=? 160) || (snd hdr >? 160 + 65000))%bool with false by lia.
  assert (Lw : snd hdr = Z.of_nat (String.length (Agent.write_ident fd body))).
  { rewrite W, !length_app_s, L1, L2, L3. cbn [str1 String.length]. lia. }
  destruct (string_dec service "") as [->|Ne]; [|destruct (starts "+" service) eqn:Pl].
  3:{ left. split; [exact Ne|]. split; [reflexivity|]. split; [exact Ls|].
      destruct (exists_cleaned "@:" t') as [target' Ct]. destruct (exists_cleaned "@:" s') as [source' Cs]. destruct (exists_cleaned "+" service) as [service' Cv].
      exists (Agent.write_ident fd body), t, t', s', source', target', service'.
      split; [reflexivity|]. split; [|auto 8].
      apply C43_service_messages. split; [exact Lw|]. rewrite W. eapply sm_4; try eassumption; try lia. split; auto. }
  all: right; split; [auto|]; right; exists (Agent.write_ident fd body).
  all: assert (Fw : Agent.handle_trigger_io fd 531 (snd hdr) body = [Agent.Forwarded 531 (snd hdr) (Agent.write_ident fd body)])
    by (unfold Agent.handle_trigger_io; change (531 =? Agent.MSG_TRIGGER_SERVICE4) with true; cbn [negb orb];
        rewrite H3, Z.ltb_irrefl, St; unfold MAX_SERVICE_NAME_LEN;
        replace ((snd hdr <=? 160) || (snd hdr >? 160 + 65000))%bool with false by lia; reflexivity).
  all: destruct (Props_Main.C71_answer_to_caller fd 531 (snd hdr) body _ _ _ Sm Fw) as [(so & ta & se & ident & E & _)|(raw & E & _)];
    [exfalso|exists raw; auto].
  all: apply C43_service_messages in E as [_ E]; rewrite W in E;
    destruct (message_name _ _ _ _ _ _ _ _ _ E L1 L2 L3) as (N1 & N2).
  - apply N1. reflexivity.
  - congruence.
Qed.

(** the answer: refused calls end with status 126, accepted ones get the peer and the port *)
Theorem C93_answer got :
  (vm_read got = VEnds 126 <-> got = Some "") /\
  (forall d p, vm_read got = VConnect d p <-> got = Some (d +++ p) /\ String.length d = 4%nat /\ String.length p = 4%nat) /\
  (forall n, vm_read got = VEnds n -> n = 126 \/ n = 1).
Proof.
  enough (((vm_read got = VEnds 126 <-> got = Some "") /\
           forall d p, vm_read got = VConnect d p <-> got = Some (d +++ p) /\ String.length d = 4%nat /\ String.length p = 4%nat) /\
          forall n, vm_read got = VEnds n -> n = 126 \/ n = 1) as [[? ?] ?] by auto.
  split.
  2:{ destruct got as [[|c s]|]; cbn [vm_read]; [|destruct (String.length (String c s) =? 8)%nat|]; intros n H; try discriminate H;
        apply (f_equal (fun v => match v with VEnds m => m | _ => 0 end)) in H; cbv beta iota in H; auto. }
  destruct got as [[|c s]|]; cbn [vm_read].
  - split; [tauto|]. intros d p. split; [discriminate|]. intros (E & L & _). destruct d; [discriminate L|discriminate E].
  - remember (String c s) as t eqn:Et. destruct (Nat.eqb_spec (String.length t) 8) as [L|L].
    + split; [split; [discriminate|intros E; subst t; discriminate E]|]. intros d p. split.
      * intros E. assert (d = stake 4 t) as -> by congruence. assert (p = sdrop 4 t) as -> by congruence.
        split; [f_equal; apply take_drop|]. split; [apply stake_exact; lia|rewrite sdrop_length; lia].
      * intros (E & L1 & L2). injection E as ->. rewrite stake_app_eq, sdrop_app_eq by exact L1. reflexivity.
    + split; [split; [discriminate|intros E; subst t; discriminate E]|]. intros d p. split; [discriminate|].
      intros (E & L1 & L2). injection E as ->. rewrite length_app_s in L. lia.
  - split; [split; discriminate|]. intros d p. split; [discriminate|]. intros (E & _). discriminate E.
Qed.

(** ** Calls of Python programs *)
Theorem C93_python_in_vm tty1 tty2 stream dest name arg prog argv :
  make_command (Some false) dest name arg = Some (prog :: argv) ->
  prog = "/usr/bin/qrexec-client-vm" /\
  exists hdr body how, vm_main tty1 tty2 stream argv = VAsk "/var/run/qubes/qrexec-agent" hdr body how /\
    sent "" dest (with_arg name arg) hdr body /\ hw_local how = None /\ hw_prefix how = None /\ hw_socket how = false /\
    hw_out how = tty1 /\ hw_err how = tty2.
Proof.
  unfold make_command. destruct (has_char "+" name || has_char " " name)%bool; [discriminate|].
  destruct (match arg with Some a => has_char " " a | None => false end); [discriminate|].
  intros E. apply (f_equal (fun o => match o with Some z => z | None => [] end)) in E. cbv beta iota zeta in E.
  change (match arg with Some a => name +++ "+" +++ a | None => name end) with (with_arg name arg) in E.
  assert (Ep : prog = "/usr/bin/qrexec-client-vm") by congruence. assert (Ea : argv = ["--"; dest; with_arg name arg]) by congruence.
  split; [exact Ep|]. clear E. subst argv.
  pose proof (C93_command_line tty1 tty2 stream ["--"; dest; with_arg name arg] [] [dest; with_arg name arg] (ln_dashes _ _ _)) as H.
  cbv beta iota in H. destruct H as [(_ & _ & hdr & body & how & H1 & H2 & H3 & H4 & H5 & H6 & _ & H8)|(N & _)].
  - exists hdr, body, how. split; [exact H1|]. split; [exact H2|]. split; [exact H3|]. split; [exact H6|].
    split; [|auto]. destruct (hw_socket how); [|reflexivity]. destruct (proj1 H8 eq_refl) as (o & x & [] & _).
  - exfalso. apply N. split; [|congruence]. constructor; cbn; try lia; auto; try (destruct stream; lia).
Qed.
Theorem C93_python_refuses in_dom0 dest name arg :
  make_command in_dom0 dest name arg = None <->
  in_dom0 = None \/ has_char "+" name = true \/ has_char " " name = true \/ exists a, arg = Some a /\ has_char " " a = true.
Proof.
  unfold make_command. destruct (has_char "+" name) eqn:E1; [tauto|]. destruct (has_char " " name) eqn:E2; [cbn [orb]; tauto|]. cbn [orb].
  destruct arg as [a|].
  - destruct (has_char " " a) eqn:E3.
    + split; [eauto 8|reflexivity].
    + destruct in_dom0 as [[]|]; split; try discriminate; try tauto; intros [K|[K|[K|(b & K & K')]]]; congruence.
  - destruct in_dom0 as [[]|]; split; try discriminate; try tauto; intros [K|[K|[K|(b & K & K')]]]; congruence.
Qed.
(** the command line sent to a qube means the call that was asked for *)
Lemma python_command name arg : has_char "+" name = false -> has_char " " name = false ->
  (forall a, arg = Some a -> has_char " " a = false) ->
  1 <= Z.of_nat (String.length name) <= 255 -> Z.of_nat (String.length (with_arg name arg)) <= 65000 ->
  SpecExec.call_text (with_arg name arg +++ " dom0") (SpecExec.mkCall (name +++ "+" +++ or_else arg "") name arg "dom0").
Proof.
  intros N1 N2 N3 L1 L2.
  change (" dom0") with (" " +++ "dom0" +++ ""). apply SpecExec.ct; unfold SpecExec.lacks, SpecExec.size; auto.
  - unfold with_arg. destruct arg as [a|]; [apply SpecExec.sp_arg; exact N1|]. cbn [or_else]. apply (SpecExec.sp_plain name). exact N1.
  - unfold with_arg. destruct arg as [a|]; [|exact N2]. rewrite !has_char_app, N2, (N3 a eq_refl). reflexivity.
  - discriminate.
  - left. reflexivity.
Qed.
Theorem C93_python_in_dom0 fs path session stream dest name arg prog argv :
  make_command (Some true) dest name arg = Some (prog :: argv) -> ~ is_dom0 dest ->
  prog = "/usr/bin/qrexec-client" /\
  exists command, cl_main fs path session stream argv = ClConnect dest 512 command None true false false None 10 false false /\
    (1 <= Z.of_nat (String.length name) <= 255 -> Z.of_nat (String.length (with_arg name arg)) <= 65000 ->
     exists p, Exec.parse_qubes_rpc_command command true = Some p /\
       Exec.pc_username p = Some "DEFAULT" /\ Exec.pc_name p = Some name /\ Exec.pc_arg p = arg /\
       Exec.pc_descriptor p = Some (name +++ "+" +++ or_else arg "") /\ Exec.pc_source p = Some "dom0" /\ Exec.pc_nogui p = false).
Proof.
  unfold make_command. destruct (has_char "+" name) eqn:N1; [discriminate|]. destruct (has_char " " name) eqn:N2; [discriminate|]. cbn [orb].
  destruct (match arg with Some a => has_char " " a | None => false end) eqn:N3; [discriminate|].
  intros E D. apply (f_equal (fun o => match o with Some z => z | None => [] end)) in E. cbv beta iota zeta in E.
  change (match arg with Some a => name +++ "+" +++ a | None => name end) with (with_arg name arg) in E.
  assert (Ep : prog = "/usr/bin/qrexec-client") by congruence.
  assert (Ea : argv = ["-d"; dest; "DEFAULT:QUBESRPC " +++ with_arg name arg +++ " dom0"]) by congruence.
  split; [exact Ep|]. clear E. subst argv. exists ("DEFAULT:QUBESRPC " +++ with_arg name arg +++ " dom0"). split.
  - unfold cl_main.
    rewrite (getopt_line false cl_spelled cl_shorts cl_longs cl_code _ [CDomain dest] ["DEFAULT:QUBESRPC " +++ with_arg name arg +++ " dom0"] (cl_words false)).
    2:{ change ["-d"; dest; "DEFAULT:QUBESRPC " +++ with_arg name arg +++ " dom0"] with (["-d"; dest] ++ ["DEFAULT:QUBESRPC " +++ with_arg name arg +++ " dom0"]).
        apply ln_option; [apply (vw_short (Some "d") None dest "d"); reflexivity|].
        apply ln_free; [reflexivity| |constructor]. right. intros r E. discriminate E. }
    cbn [map cl_code options cl_option String.eqb Ascii.eqb Bool.eqb cl_start c_dom c_local c_conn c_just c_socket c_code c_out c_err c_prefix c_timeout c_kill].
    destruct (DaemonPolicy.target_refers_to_dom0 dest) eqn:T; [exfalso; apply D, dom0_spec, T|]. reflexivity.
  - intros L1 L2.
    assert (N3' : forall a, arg = Some a -> has_char " " a = false) by (intros a ->; exact N3).
    pose proof (python_command name arg N1 N2 N3' L1 L2) as C.
    set (p := Exec.mkCmd (Some "DEFAULT") (with_arg name arg +++ " dom0") false (Some (name +++ "+" +++ or_else arg "")) (Some name) arg (Some "dom0")).
    exists p. split; [|repeat split].
    apply Props_Exec.C49_command_lines. exists (Some (SpecExec.mkCall (name +++ "+" +++ or_else arg "") name arg "dom0")). split; [|repeat split].
    apply SpecExec.lm_call with (rest := "QUBESRPC " +++ with_arg name arg +++ " dom0"); [|apply SpecExec.gp_with; intros [r E]; discriminate E|exact C].
    apply (SpecExec.up_user "DEFAULT" ("QUBESRPC " +++ with_arg name arg +++ " dom0")). reflexivity.
Qed.

(** a call to dom0 itself runs the program of the service, found as for other calls *)
Theorem C93_python_local fs path session stream dest name arg prog argv :
  make_command (Some true) dest name arg = Some (prog :: argv) -> is_dom0 dest ->
  1 <= Z.of_nat (String.length name) <= 255 -> Z.of_nat (String.length (with_arg name arg)) <= 65000 ->
  let command := with_arg name arg +++ " dom0" in
  cl_main fs path session stream argv =
    (if session then
       match Exec.find_qrexec_service fs path false false (name +++ "+" +++ or_else arg "") name arg command with
       | Exec.RunProgram p => ClRunService p command
       | Exec.ServiceAbsent => ClExit 127
       | _ => ClExit 125
       end
     else ClExit 125) /\
  forall p env, SpecExec.begins "/" p ->
    exists rest mine, Exec.exec_qubes_rpc2 p command env false = Exec.Execve p (p :: SpecExec.service_args arg) (rest ++ mine) /\
      SpecExec.call_env (rest ++ mine) (with_arg name arg) "dom0" arg SpecExec.AskedNothing.
Proof.
  unfold make_command. destruct (has_char "+" name) eqn:N1; [discriminate|]. destruct (has_char " " name) eqn:N2; [discriminate|]. cbn [orb].
  destruct (match arg with Some a => has_char " " a | None => false end) eqn:N3; [discriminate|].
  intros E D L1 L2. apply (f_equal (fun o => match o with Some z => z | None => [] end)) in E. cbv beta iota zeta in E.
  change (match arg with Some a => name +++ "+" +++ a | None => name end) with (with_arg name arg) in E.
  assert (Ea : argv = ["-d"; dest; "DEFAULT:QUBESRPC " +++ with_arg name arg +++ " dom0"]) by congruence.
  clear E. subst argv. cbv zeta.
  assert (N3' : forall a, arg = Some a -> has_char " " a = false) by (intros a ->; exact N3).
  pose proof (python_command name arg N1 N2 N3' L1 L2) as C. split.
  - set (p := Exec.mkCmd None (with_arg name arg +++ " dom0") false (Some (name +++ "+" +++ or_else arg "")) (Some name) arg (Some "dom0")).
    assert (P : Exec.parse_qubes_rpc_command ("QUBESRPC " +++ with_arg name arg +++ " dom0") false = Some p).
    { apply Props_Exec.C49_command_lines. exists (Some (SpecExec.mkCall (name +++ "+" +++ or_else arg "") name arg "dom0")). split; [|repeat split].
      apply SpecExec.lm_call with (rest := "QUBESRPC " +++ with_arg name arg +++ " dom0"); [|apply SpecExec.gp_with; intros [r E]; discriminate E|exact C].
      apply SpecExec.up_none. }
    unfold cl_main.
    rewrite (getopt_line false cl_spelled cl_shorts cl_longs cl_code _ [CDomain dest] ["DEFAULT:QUBESRPC " +++ with_arg name arg +++ " dom0"] (cl_words false)).
    2:{ change ["-d"; dest; "DEFAULT:QUBESRPC " +++ with_arg name arg +++ " dom0"] with (["-d"; dest] ++ ["DEFAULT:QUBESRPC " +++ with_arg name arg +++ " dom0"]).
        apply ln_option; [apply (vw_short (Some "d") None dest "d"); reflexivity|].
        apply ln_free; [reflexivity| |constructor]. right. intros r E. discriminate E. }
    cbn [map cl_code options cl_option String.eqb Ascii.eqb Bool.eqb cl_start c_dom c_local c_conn c_just c_socket].
    apply dom0_spec in D. rewrite D.
    change (starts "DEFAULT:" ("DEFAULT:QUBESRPC " +++ with_arg name arg +++ " dom0")) with true. cbn [negb].
    change (sdrop 8 ("DEFAULT:QUBESRPC " +++ with_arg name arg +++ " dom0")) with ("QUBESRPC " +++ with_arg name arg +++ " dom0").
    rewrite P. unfold p. cbn [Exec.pc_descriptor Exec.pc_name Exec.pc_arg Exec.pc_command].
    destruct session; reflexivity.
  - intros p env Hp.
    assert (Hw : SpecExec.call_words (with_arg name arg +++ " dom0") (with_arg name arg) "dom0" SpecExec.AskedNothing).
    { constructor. apply (SpecExec.w_cons "" (with_arg name arg) " dom0" ["dom0"]).
      - intros c H. discriminate H.
      - intros H. unfold with_arg in H. destruct name; [cbn in L1; lia|]. destruct arg; discriminate H.
      - unfold SpecExec.lacks, with_arg. destruct arg as [a|]; [|exact N2]. rewrite !has_char_app, N2, (N3' a eq_refl). reflexivity.
      - right. exists "dom0". reflexivity.
      - apply (SpecExec.w_cons " " "dom0" "" []); [|discriminate|reflexivity|left; reflexivity|constructor; intros c H; discriminate H].
        intros c H. cbn in H. rewrite orb_false_r in H. apply Ascii.eqb_eq in H. exact H. }
    assert (Ha : SpecExec.argument_of (with_arg name arg) arg).
    { unfold with_arg. destruct arg as [a|]; [apply SpecExec.ao_some|apply SpecExec.ao_none]; exact N1. }
    destruct (Props_Exec.C52_direct p _ env _ _ _ _ Hp Hw Ha) as (rest & mine & H1 & _ & _ & H4). eauto.
Qed.

(** A target of more than 63 bytes is cut without a message *)
Theorem C93_long_target_refuted : exists dest cut rest hdr body, dest = cut +++ rest /\ rest <> "" /\ spelled "@:" cut /\
  (exists how, vm_main false false false ["--"; dest; "svc"] = VAsk "/var/run/qubes/qrexec-agent" hdr body how) /\
  exists body', Agent.handle_trigger_io 7 (fst hdr) (snd hdr) body = [Agent.Forwarded 531 (snd hdr) body'] /\
    handle_message_from_agent 4 531 (snd hdr) body' = ServiceCall (Some "") cut "svc" "SOCKET7".
Proof.
  exists "@dispvm:a123456789012345678901234567890123456789012345678901234xyz", "@dispvm:a123456789012345678901234567890123456789012345678901234", "xyz".
  eexists _, _. split; [reflexivity|]. split; [discriminate|]. split.
  { intros c H. cbn in H. repeat (apply orb_true_iff in H as [H|H]; [apply Ascii.eqb_eq in H as ->; reflexivity|]). discriminate H. }
  split; [eexists; vm_compute; reflexivity|]. eexists. split; vm_compute; reflexivity.
Qed.
Example C93_example :
  (exists hdr body, vm_main false true false ["-T"; "--source-qube=far"; "$dispvm"; "qubes.Gpg+a"; "/usr/bin/gpg"; "-d"] =
     VAsk "/var/run/qubes/qrexec-agent" hdr body (mkHow (Some ["/usr/bin/gpg"; "-d"]) false true None 0 false) /\
   exists body', Agent.handle_trigger_io 12 (fst hdr) (snd hdr) body = [Agent.Forwarded 531 (snd hdr) body'] /\
     handle_message_from_agent 4 531 (snd hdr) body' = ServiceCall (Some "far") "@dispvm" "qubes.Gpg+a" "SOCKET12") /\
  line true vm_spelled ["-T"; "--source-qube=far"; "$dispvm"; "qubes.Gpg+a"; "/usr/bin/gpg"; "-d"]
    [OFilterErr true; OSource "far"] ["$dispvm"; "qubes.Gpg+a"; "/usr/bin/gpg"; "-d"] /\
  make_command (Some false) "-x" "svc" (Some "a") = Some ["/usr/bin/qrexec-client-vm"; "--"; "-x"; "svc+a"].
Proof.
  split; [|split].
  - eexists _, _. split; [vm_compute; reflexivity|]. eexists. split; vm_compute; reflexivity.
  - change ["-T"; "--source-qube=far"; "$dispvm"; "qubes.Gpg+a"; "/usr/bin/gpg"; "-d"] with
      (["-T"] ++ ["--source-qube=far"] ++ ["$dispvm"; "qubes.Gpg+a"; "/usr/bin/gpg"; "-d"]).
    apply ln_option; [apply (fw_short (Some "T") _ "T"); reflexivity|].
    apply ln_option; [apply (vw_equals _ (Some "source-qube") "far" "source-qube"); reflexivity|].
    apply ln_stop; [reflexivity|]. right. intros r E. discriminate E.
  - reflexivity.
Qed.

(** * C94: qrexec-client *)
Lemma last_given {O A} (f : O -> option A) os : (exists x, last_of f os = Some x) <-> given f os.
Proof.
  induction os as [|o os IH]; cbn [last_of].
  - split; [intros [x E]; discriminate|intros (o & x & [] & _)].
  - destruct (last_of f os) as [u|].
    + split; [|eauto]. intros _. destruct (proj1 IH (ex_intro _ u eq_refl)) as (o' & x & I & E). exists o', x. split; [right; exact I|exact E].
    + split.
      * intros [x E]. exists o, x. split; [left; reflexivity|exact E].
      * intros (o' & x & [<-|I] & E); [eauto|]. exfalso. destruct (proj2 IH (ex_intro _ o' (ex_intro _ x (conj I E)))) as [y K]. discriminate K.
Qed.
Lemma or_given_true {O A} (f : O -> option A) os : or_given f os true false = true <-> given f os.
Proof.
  rewrite <- last_given. unfold or_given. destruct (last_of f os); split; try discriminate; eauto. intros [x E]. discriminate E.
Qed.
Lemma given_dec {O A} (f : O -> option A) os : given f os \/ ~ given f os.
Proof.
  rewrite <- last_given. destruct (last_of f os); [left; eauto|right; intros [x E]; discriminate E].
Qed.
(** What the program does with a command line that is spelled with known options *)
Definition usable (stream : bool) (os : list cl_opt) (ps : list string) (dom command : string) : Prop :=
  cl_fine stream os /\ compatible os /\ last_of p_domain os = Some dom /\ exists more, ps = command :: more.
Inductive fresh_call (os : list cl_opt) (dom command : string) : cl_outcome -> Prop :=
| fc type code out err timeout socket kill :
    (type = 513 /\ given p_exec os \/ type = 512 /\ ~ given p_exec os) ->
    (code = true <-> ~ given p_nocode os) -> (out = true <-> given p_out os) -> (err = true <-> given p_err os) ->
    match last_of p_timeout os with Some t => c_number t timeout | None => timeout = 10 end ->
    (socket = true <-> given p_socket os) -> (kill = true <-> given p_kill os) ->
    fresh_call os dom command (ClConnect dom type command (last_of p_local os) code out err (last_of p_prefix os) timeout socket kill).
Inductive answer_call (os : list cl_opt) (dom command : string) : cl_outcome -> Prop :=
| ac_dom0 t id name n timeout code : last_of p_connect os = Some t -> connect_text t id name n -> ~ is_dom0 name -> n <> 0 -> is_dom0 dom ->
    id <> "" -> match last_of p_timeout os with Some t => c_number t timeout | None => timeout = 10 end ->
    (code = true <-> ~ given p_nocode os) ->
    answer_call os dom command (ClToDom0 id n name command timeout code (last_of p_prefix os))
| ac_empty t name n : last_of p_connect os = Some t -> connect_text t "" name n -> is_dom0 dom ->
    answer_call os dom command (ClExit 1)
| ac_vm t id name n wait uuid : last_of p_connect os = Some t -> connect_text t id name n -> ~ is_dom0 name -> n <> 0 -> ~ is_dom0 dom ->
    (wait = true <-> given p_wait os) -> (uuid = true <-> exists r, dom = "uuid:" +++ r) ->
    answer_call os dom command (ClExecuteVm dom n command id wait uuid).
Theorem C94_command_line_partial fs path session stream argv os ps :
  line false cl_spelled argv os ps ->
  let r := cl_main fs path session stream argv in
  (forall dom command, usable stream os ps dom command ->
     (~ given p_connect os -> ~ is_dom0 dom -> fresh_call os dom command r) /\
     (given p_connect os -> answer_call os dom command r) /\
     (~ given p_connect os -> is_dom0 dom ->
        (exists n, r = ClExit n /\ (n = 125 \/ n = 127)) \/
        ~ given p_local os /\
        exists text c prog, command = "DEFAULT:" +++ text /\ SpecExec.line_means false text None (Exec.pc_nogui c) (Exec.pc_command c)
          (Some (SpecExec.mkCall (or_else (Exec.pc_descriptor c) "") (or_else (Exec.pc_name c) "") (Exec.pc_arg c) (or_else (Exec.pc_source c) ""))) /\
          r = ClRunService prog (Exec.pc_command c) /\
          Exec.find_qrexec_service fs path false false (or_else (Exec.pc_descriptor c) "") (or_else (Exec.pc_name c) "") (Exec.pc_arg c) (Exec.pc_command c) = Exec.RunProgram prog)) /\
  (~ (exists dom command, usable stream os ps dom command) -> exists n, r = ClExit n /\ (n = 0 -> In CHelp os)).
Proof.
  intros L. cbv zeta. pose proof (getopt_line false cl_spelled cl_shorts cl_longs cl_code argv os ps (cl_words false) L) as G.
  pose proof (cl_options stream os cl_start) as V. unfold cl_main. rewrite G.
  destruct (options (cl_option stream) (map cl_code os) cl_start) as [c|n].
  2:{ destruct V as (V1 & V2 & V3). split; [|eauto]. intros dom command ([F1 F2 F3 F4 F5 F6] & _). exfalso. apply V1.
      unfold cl_rel. cbn [cl_start c_conn c_prefix c_socket held]. split; [lia|]. split; [exact F2|]. split; [lia|].
      split; [exact F4|]. split; [destruct stream; lia|exact F6]. }
  destruct V as [(R1 & R2 & R3 & R4 & R5 & R6) (F1 & F2 & F3 & F4 & F5 & F6 & F7 & F8 & F9 & F10 & F11 & F12)].
  cbn [cl_start c_conn c_prefix c_socket held c_dom c_local c_just c_code c_out c_err c_timeout c_wait c_kill] in *.
  assert (Fine : cl_fine stream os) by (constructor; try lia; auto; destruct stream; lia).
  assert (Just : c_just c = true <-> given p_exec os) by (rewrite F3; apply or_given_true).
  assert (Sock : c_socket c = true <-> given p_socket os) by (rewrite F11; apply or_given_true).
  assert (Loc : (exists x, c_local c = Some x) <-> given p_local os).
  { rewrite <- last_given, F2. unfold or_keep. destruct (last_of p_local os); split; eauto. }
  assert (Con : (exists x, c_conn c = Some x) <-> given p_connect os).
  { rewrite <- last_given. destruct (last_of p_connect os) as [t|]; [destruct F5 as (i & m & k & E & _); rewrite E; split; eauto|].
    rewrite F5. split; intros [x E]; discriminate E. }
  assert (Dm : c_dom c = last_of p_domain os) by (rewrite F1; unfold or_keep; destruct (last_of p_domain os); reflexivity).
  set (clash := match c_local c, c_conn c with
             | Some _, Some _ => true
             | Some _, None | None, Some _ => c_just c
             | None, None => false
             end).
  set (two := match c_local c with Some _ => c_socket c | None => false end).
  assert (Cmp : compatible os <-> clash = false /\ two = false).
  { unfold compatible, clash, two. rewrite <- Just, <- Loc, <- Con, <- Sock.
    destruct (c_local c) as [l|], (c_conn c) as [k|], (c_just c), (c_socket c); split; intros H; try (split; reflexivity);
      try (exfalso; destruct H as (H1 & H2 & H3 & H4); first [apply H1; eauto; fail | apply H2; eauto; fail | apply H3; eauto; fail | apply H4; eauto; fail]);
      try (destruct H; discriminate); repeat split; intros A B; try (destruct A; discriminate); try (destruct B; discriminate); discriminate. }
  assert (Ex1 : exists n, ClExit 1 = ClExit n /\ (n = 0 -> In CHelp os)) by (exists 1; split; [reflexivity|discriminate]).
  destruct ps as [|command more].
  { split; [|intros _; exact Ex1]. intros dom command (_ & _ & _ & m & E). discriminate E. }
  destruct (c_dom c) as [dom|] eqn:Ed.
  2:{ split; [|intros _; exact Ex1]. intros dom command' (_ & _ & E & _). congruence. }
  destruct clash eqn:Ec.
  { split; [|intros _; exact Ex1]. intros dom' command' (_ & K & _). apply Cmp in K as [K _]. discriminate K. }
  destruct two eqn:Et.
  { split; [|intros _; exact Ex1]. intros dom' command' (_ & K & _). apply Cmp in K as [_ K]. discriminate K. }
  assert (Us : usable stream os (command :: more) dom command).
  { split; [exact Fine|]. split; [apply Cmp; auto|]. split; [congruence|eauto]. }
  split; [|intros N; exfalso; apply N; eauto].
  intros dom' command' (_ & _ & E1 & m & E2). assert (dom' = dom) as -> by congruence. assert (command' = command) as -> by congruence. clear E1 E2 m.
  assert (Code : c_code c = true <-> ~ given p_nocode os).
  { rewrite F4. unfold or_given. rewrite <- last_given. destruct (last_of p_nocode os) as [x|]; split; try discriminate; auto.
    - intros H. exfalso. apply H. eauto.
    - intros _ [x E]. discriminate E. }
  assert (Out : c_out c = true <-> given p_out os) by (rewrite F7; apply or_given_true).
  assert (Err : c_err c = true <-> given p_err os) by (rewrite F8; apply or_given_true).
  assert (Wt : c_wait c = true <-> given p_wait os) by (rewrite F10; apply or_given_true).
  assert (Kl : c_kill c = true <-> given p_kill os) by (rewrite F12; apply or_given_true).
  assert (Pf : c_prefix c = last_of p_prefix os) by (rewrite F6; unfold or_keep; destruct (last_of p_prefix os); reflexivity).
  assert (Lc : c_local c = last_of p_local os) by (rewrite F2; unfold or_keep; destruct (last_of p_local os); reflexivity).
  destruct (DaemonPolicy.target_refers_to_dom0 dom) eqn:D.
  - assert (D' : is_dom0 dom) by (apply dom0_spec, D).
    destruct (c_conn c) as [[[id name] k]|] eqn:Ek.
    + assert (Gc : given p_connect os) by (apply Con; eauto).
      split; [intros N; contradiction|]. split; [|intros N; contradiction]. intros _.
      destruct (last_of p_connect os) as [t|] eqn:Lt; [|congruence].
      destruct F5 as (i & m & q & E & G1 & G2 & G3). injection E as <- <- <-.
      destruct (String.eqb_spec id "") as [->|Ni].
      * eapply ac_empty; eassumption.
      * rewrite Pf. assert (Li : stake 31 id = id). { apply EvalSvc.stake_all. destruct G1. lia. } rewrite Li.
        eapply ac_dom0; eassumption.
    + assert (Gc : ~ given p_connect os) by (intros H; apply Con in H as [x H]; congruence).
      split; [intros _ H; contradiction|]. split; [intros H; contradiction|]. intros _ _.
      destruct (c_local c) as [l|] eqn:El; [left; exists 125; auto|].
      assert (Gl : ~ given p_local os) by (intros H; apply Loc in H as [x H]; congruence).
      destruct (starts "DEFAULT:" command) eqn:Sd; cbn [negb]; [|left; exists 125; auto].
      apply starts_spec in Sd as [text ->]. change (sdrop 8 ("DEFAULT:" +++ text)) with text.
      destruct (Exec.parse_qubes_rpc_command text false) as [pc|] eqn:Ep; [|left; exists 125; auto].
      apply Props_Exec.C49_command_lines in Ep as (cl & M1 & M2 & M3 & M4 & M5).
      destruct cl as [cl|]; cbn [option_map] in *; rewrite ?M2, ?M3; [|left; exists 125; auto].
      destruct session; cbn [negb]; [|left; exists 125; auto].
      destruct (Exec.find_qrexec_service fs path false false _ _ _ _) as [| |prog| |] eqn:Ef; try (left; eexists; split; [reflexivity|auto]; fail).
      right. split; [exact Gl|]. exists text, pc, prog. split; [reflexivity|].
      assert (Un : Exec.pc_username pc = None). { inversion M1 as [r tx cc U|r tx U]; inversion U; reflexivity. }
      rewrite Un in M1. split; [|split; [reflexivity|rewrite M2, M3; exact Ef]].
      rewrite M2, M3, M5, M4. cbn [or_else]. destruct cl; exact M1.
  - assert (D' : ~ is_dom0 dom) by (intros H; apply dom0_spec in H; congruence).
    destruct (c_conn c) as [[[id name] k]|] eqn:Ek.
    + assert (Gc : given p_connect os) by (apply Con; eauto).
      split; [intros N; contradiction|]. split; [|intros N; contradiction]. intros _.
      destruct (last_of p_connect os) as [t|] eqn:Lt; [|congruence].
      destruct F5 as (i & m & q & E & G1 & G2 & G3). injection E as <- <- <-.
      eapply ac_vm; try eassumption. split; [intros H; apply starts_spec in H; exact H|intros H; apply starts_spec; exact H].
    + assert (Gc : ~ given p_connect os) by (intros H; apply Con in H as [x H]; congruence).
      split; [|split; [intros H; contradiction|intros _ H; contradiction]]. intros _ _.
      rewrite Pf, Lc. apply fc; try assumption.
      destruct (c_just c) eqn:Ej; [left; split; [reflexivity|apply Just; reflexivity]|right; split; [reflexivity|]].
      intros H. apply Just in H. congruence.
Qed.

(** Whatever the arguments are: dom0 is never taken for the caller of a connection, calls of other
    qubes have a name and an identifier, and dom0 never runs anything for itself but a
    service. *)
Theorem C94_any_arguments fs path session stream argv :
  match cl_main fs path session stream argv with
  | ClToDom0 id n name _ _ _ _ => ~ is_dom0 name /\ n <> 0 /\ 0 <= n <= 2147483647 /\ id <> "" /\ (String.length id <= 31)%nat
  | ClExecuteVm dom n _ id _ _ => ~ is_dom0 dom /\ n <> 0 /\ 0 <= n <= 2147483647 /\ (String.length id <= 31)%nat
  | ClConnect dom type _ _ _ _ _ _ _ _ _ => ~ is_dom0 dom /\ (type = 512 \/ type = 513)
  | ClRunService prog command => session = true /\ exists c, SpecExec.call_text command c /\
      Exec.find_qrexec_service fs path false false (SpecExec.c_full c) (SpecExec.c_name c) (SpecExec.c_arg c) command = Exec.RunProgram prog
  | ClExit _ => True
  end.
Proof.
  unfold cl_main. destruct (getopt false cl_shorts cl_longs argv) as [os ps].
  assert (Inv : forall os c c', options (cl_option stream) os c = inl c' ->
    (forall id name n, c_conn c = Some (id, name, n) -> ~ is_dom0 name /\ n <> 0 /\ 0 <= n <= 2147483647 /\ (String.length id <= 31)%nat) ->
    (forall id name n, c_conn c' = Some (id, name, n) -> ~ is_dom0 name /\ n <> 0 /\ 0 <= n <= 2147483647 /\ (String.length id <= 31)%nat)).
  { clear. induction os as [|[k arg] os IH]; intros c c' H K; cbn [options] in H; [injection H as <-; exact K|].
    destruct (cl_option stream (k, arg) c) as [c1|] eqn:E; [|discriminate]. apply (IH c1 c' H). clear IH H c'.
    destruct c as [d l j co cn pr ou er ti wa so ki]. unfold cl_option in E. cbn [c_conn] in K.
    destruct (String.eqb k "d"); [injection E as <-; exact K|].
    destruct (String.eqb k "l"); [injection E as <-; exact K|].
    destruct (String.eqb k "e"); [injection E as <-; exact K|].
    destruct (String.eqb k "E"); [injection E as <-; exact K|].
    destruct (String.eqb k "c").
    { destruct cn; [discriminate|]. destruct (parse_connect _) as [[[id name] n]|] eqn:P; [|discriminate].
      destruct (DaemonPolicy.target_refers_to_dom0 name || (n =? 0))%bool eqn:B; [discriminate|]. injection E as <-. cbn [c_conn].
      intros id' name' n' Q. injection Q as <- <- <-. apply orb_false_iff in B as [B1 B2]. apply parse_connect_spec in P. inversion P as [i m num v H1 H2 H3 H4]; subst.
      split; [intros D; apply dom0_spec in D; congruence|]. split; [apply Z.eqb_neq, B2|]. split; [|exact H3].
      assert (Nn : forall b s v, 0 <= b -> numeral b s v -> 0 <= v).
      { clear. intros b s v B. induction 1 as [|s n c d H IH D]; [lia|]. destruct D; nia. }
      destruct H4 as [c s v N U Lm|s v U Lm|x s v X N U Lm]; split; try exact Lm; eapply Nn; try eassumption; lia. }
    destruct (String.eqb k "p"); [destruct pr; [discriminate|injection E as <-; exact K]|].
    destruct (String.eqb k "t"); [injection E as <-; exact K|].
    destruct (String.eqb k "T"); [injection E as <-; exact K|].
    destruct (String.eqb k "w"); [destruct (parse_int _); [injection E as <-; exact K|discriminate]|].
    destruct (String.eqb k "W"); [injection E as <-; exact K|].
    destruct (String.eqb k "dir"); [injection E as <-; exact K|].
    destruct (String.eqb k "u"); [destruct (_ || _)%bool; [discriminate|injection E as <-; exact K]|].
    destruct (String.eqb k "k"); [injection E as <-; exact K|discriminate]. }
  destruct (options (cl_option stream) os cl_start) as [c|n] eqn:Eo; [|exact I].
  specialize (Inv os cl_start c Eo). cbn [cl_start c_conn] in Inv. specialize (Inv ltac:(discriminate)).
  destruct ps as [|command more]; [exact I|]. destruct (c_dom c) as [dom|]; [|exact I].
  destruct (match c_local c, c_conn c with Some _, Some _ => true | Some _, None | None, Some _ => c_just c | None, None => false end); [exact I|].
  destruct (match c_local c with Some _ => c_socket c | None => false end); [exact I|].
  destruct (DaemonPolicy.target_refers_to_dom0 dom) eqn:D.
  - destruct (c_conn c) as [[[id name] k]|] eqn:Ek.
    + destruct (String.eqb_spec id "") as [->|Ni]; [exact I|]. destruct (Inv _ _ _ eq_refl) as (A & B & C & L).
      rewrite EvalSvc.stake_all by lia. auto.
    + destruct (c_local c); [exact I|]. destruct (starts "DEFAULT:" command); cbn [negb]; [|exact I].
      destruct (Exec.parse_qubes_rpc_command (sdrop 8 command) false) as [pc|] eqn:Ep; [|exact I].
      apply Props_Exec.C49_command_lines in Ep as (cl & M1 & M2 & M3 & M4 & M5).
      destruct cl as [cl|]; cbn [option_map] in *; rewrite ?M2, ?M3; [|exact I].
      destruct session; cbn [negb]; [|exact I].
      destruct (Exec.find_qrexec_service fs path false false _ _ _ _) as [| |prog| |] eqn:Ef; try exact I.
      split; [reflexivity|]. exists cl. split; [inversion M1; subst; assumption|]. rewrite <- M4. exact Ef.
  - assert (D' : ~ is_dom0 dom) by (intros H; apply dom0_spec in H; congruence).
    destruct (c_conn c) as [[[id name] k]|] eqn:Ek.
    + destruct (Inv _ _ _ eq_refl) as (A & B & C & L). auto.
    + split; [exact D'|]. destruct (c_just c); auto.
Qed.
(** A mistyped option ends qrexec-client with status 0, as if the call had been made;
    qrexec-client-vm reports it. *)
Theorem C94_unknown_option_refuted : exists argv, ~ In "-h" argv /\ ~ In "--help" argv /\
  (forall fs path session stream, cl_main fs path session stream argv = ClExit 0) /\
  exists argv', ~ In "-h" argv' /\ ~ In "--help" argv' /\ forall t1 t2 stream, vm_main t1 t2 stream argv' = VExit 2.
Proof.
  exists ["-d"; "work"; "--wait"; "user:command"].
  split; [cbn; intuition discriminate|]. split; [cbn; intuition discriminate|].
  split; [intros fs path session []; reflexivity|].
  exists ["--wait"; "work"; "svc"]. split; [cbn; intuition discriminate|]. split; [cbn; intuition discriminate|]. reflexivity.
Qed.
Example C94_example :
  let fs : Exec.filesystem := fun p => if String.eqb p "/etc/qubes-rpc/svc" then Exec.LFound (Exec.KFile true) else Exec.LAbsent in
  line false cl_spelled ["-d"; "work"; "user:command"; "-e"; "-w0x1f"] [CDomain "work"; CExec; CTimeout "0x1f"] ["user:command"] /\
  usable true [CDomain "work"; CExec; CTimeout "0x1f"] ["user:command"] "work" "user:command" /\
  cl_main fs "/etc/qubes-rpc" true true ["-d"; "work"; "user:command"; "-e"; "-w0x1f"] =
    ClConnect "work" 513 "user:command" None true false false None 31 false false /\
  cl_main fs "/etc/qubes-rpc" true true ["-d"; "dom0"; "-c"; "SOCKET9,work,12"; "QUBESRPC svc work"] =
    ClToDom0 "SOCKET9" 12 "work" "QUBESRPC svc work" 10 true None /\
  cl_main fs "/etc/qubes-rpc" true true ["-d"; "vault"; "-c"; "SOCKET9,work,12"; "-W"; "user:QUBESRPC svc work"] =
    ClExecuteVm "vault" 12 "user:QUBESRPC svc work" "SOCKET9" true false /\
  cl_main fs "/etc/qubes-rpc" true true ["-d"; "dom0"; "DEFAULT:QUBESRPC svc dom0"] = ClRunService "/etc/qubes-rpc/svc" "svc dom0" /\
  cl_main fs "/etc/qubes-rpc" true true ["-d"; "dom0"; "DEFAULT:rm -r /"] = ClExit 125 /\
  cl_main fs "/etc/qubes-rpc" true true ["-d"; "dom0"; "-c"; "SOCKET9,dom0,12"; "QUBESRPC svc work"] = ClExit 1 /\
  cl_main fs "/etc/qubes-rpc" true true ["-d"; "work"; "-e"; "-l"; "cat"; "user:command"] = ClExit 1.
Proof.
  cbv zeta. split; [|split].
  - change ["-d"; "work"; "user:command"; "-e"; "-w0x1f"] with (["-d"; "work"] ++ "user:command" :: ["-e"] ++ ["-w0x1f"] ++ []).
    apply ln_option; [apply (vw_short (Some "d") None "work" "d"); reflexivity|].
    apply ln_free; [reflexivity|right; intros r E; discriminate E|].
    apply ln_option; [apply (fw_short (Some "e") None "e"); reflexivity|].
    apply ln_option; [apply (vw_joined (Some "w") None "0x1f" "w"); [reflexivity|discriminate]|constructor].
  - split; [constructor; try (cbn; lia)|].
    + intros t [E|[E|[E|[]]]]; discriminate E.
    + intros t [E|[E|[E|[]]]]; try discriminate E. injection E as <-. exists 31. apply parse_int_spec. reflexivity.
    + split; [|split; [reflexivity|exists []; reflexivity]].
      unfold compatible, given. repeat split; intros _ (o & x & [<-|[<-|[<-|[]]]] & E); discriminate E.
  - repeat split; vm_compute; reflexivity.
Qed.
