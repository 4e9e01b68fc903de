(** Proofs about the histories of the daemon *)
From Coq Require Import String Ascii List Bool Arith ZArith Lia.
From Verif Require Import Base Sanitize DaemonAgent DaemonState SpecDaemon SpecAgent SpecState AgentProofs.
Import ListNotations.
Open Scope string_scope.
Open Scope list_scope.
Open Scope Z_scope.

(** ** Lists *)
Lemma set_nth_length {A} n (x : A) l : length (set_nth n x l) = length l.
Proof. revert n; induction l as [|a l IH]; intros [|n]; cbn [set_nth length]; auto. Qed.
Lemma set_nth_same {A} n (x d : A) l : (n < length l)%nat -> nth n (set_nth n x l) d = x.
Proof. revert n; induction l as [|a l IH]; intros [|n] H; cbn in *; auto; try lia. apply IH; lia. Qed.
Lemma set_nth_other {A} n m (x d : A) l : n <> m -> nth m (set_nth n x l) d = nth m l d.
Proof. revert n m; induction l as [|a l IH]; intros [|n] [|m] H; cbn; auto; try congruence. Qed.
Lemma set_nth_id {A} n (d : A) l : (n < length l)%nat -> set_nth n (nth n l d) l = l.
Proof. revert n; induction l as [|a l IH]; intros [|n] H; cbn in *; auto; try lia. f_equal; apply IH; lia. Qed.
Lemma set_nth_twice {A} n (x y : A) l : set_nth n x (set_nth n y l) = set_nth n x l.
Proof. revert n; induction l as [|a l IH]; intros [|n]; cbn; auto. now rewrite IH. Qed.
Lemma set_nth_in {A} n (x z : A) l : In z (set_nth n x l) -> z = x \/ In z l.
Proof.
  revert n; induction l as [|a l IH]; intros [|n]; cbn; auto.
  - intros [<-|H]; auto.
  - intros [<-|H]; auto. destruct (IH _ H); auto.
Qed.

(** ** Numbers *)
Lemma u32_cons a b c d r : u32 (String a (String b (String c (String d r)))) = number a b c d.
Proof. unfold u32, number. cbn [stake list_ascii_of_string fold_right]. lia. Qed.
Lemma ascii_range a : 0 <= Z.of_nat (nat_of_ascii a) < 256.
Proof. pose proof (nat_ascii_bounded a). lia. Qed.
Lemma number_range a b c d : 0 <= number a b c d < 4294967296.
Proof. unfold number. pose proof (ascii_range a); pose proof (ascii_range b); pose proof (ascii_range c); pose proof (ascii_range d). lia. Qed.
Lemma signed_iff n d : 0 <= n < 4294967296 -> signed n d <-> d = to_int n.
Proof. intros H. unfold signed, to_int. destruct (Z.ltb_spec n 2147483648); lia. Qed.
Lemma eight_bytes s : String.length s = 8%nat ->
  exists a0 a1 a2 a3 b0 b1 b2 b3, s = string_of_list_ascii [a0; a1; a2; a3; b0; b1; b2; b3].
Proof.
  intros H. do 8 (destruct s as [|? s]; [discriminate H|]). destruct s; [|discriminate H].
  do 8 eexists. reflexivity.
Qed.
Lemma four_bytes s : (4 <= String.length s)%nat ->
  exists a0 a1 a2 a3 r, s = String a0 (String a1 (String a2 (String a3 r))).
Proof.
  intros H. do 4 (destruct s as [|? s]; [cbn in H; lia|]). do 5 eexists. reflexivity.
Qed.
Lemma reports_end_iff ev d p : reports_end ev d p <->
  exists body pid, ev = FromAgent 529 8 body pid /\ String.length body = 8%nat /\
    d = to_int (u32 body) /\ p = u32 (sdrop 4 body).
Proof.
  split.
  - intros (a0 & a1 & a2 & a3 & b0 & b1 & b2 & b3 & pid & -> & Hd & Hp).
    eexists; exists pid. split; [reflexivity|]. split; [reflexivity|].
    cbn [string_of_list_ascii sdrop]. rewrite !u32_cons.
    apply signed_iff in Hd; [|apply number_range]. auto.
  - intros (body & pid & -> & Hl & -> & ->).
    destruct (eight_bytes _ Hl) as (a0 & a1 & a2 & a3 & b0 & b1 & b2 & b3 & ->).
    exists a0, a1, a2, a3, b0, b1, b2, b3, pid. split; [reflexivity|].
    cbn [string_of_list_ascii sdrop]. rewrite !u32_cons. split; [|reflexivity].
    apply signed_iff; [apply number_range|reflexivity].
Qed.

(** ** Allocation *)
Lemma scan_some fuel i step used n : (0 < step)%nat -> scan_ports fuel i step used = Some n ->
  (n < MAX_CLIENTS)%nat /\ nth n used 0 = VCHAN_PORT_UNUSED /\ exists k, n = (i + k * step)%nat.
Proof.
  intros Hs. revert i; induction fuel as [|fuel IH]; intros i; cbn [scan_ports]; [discriminate|].
  destruct (Nat.ltb_spec i MAX_CLIENTS) as [Hi|]; [|discriminate].
  destruct (Z.eqb_spec (nth i used 0) VCHAN_PORT_UNUSED) as [E|E].
  - intros H. assert (i = n) by congruence. subst. split; [auto|]. split; [auto|]. exists 0%nat; lia.
  - intros H. apply IH in H as (A & B & k & C). split; [auto|]. split; [auto|]. exists (S k). lia.
Qed.
Lemma scan_none fuel i step used : (0 < step)%nat -> (MAX_CLIENTS < fuel + i)%nat ->
  scan_ports fuel i step used = None ->
  forall k, (i + k * step < MAX_CLIENTS)%nat -> nth (i + k * step) used 0 <> VCHAN_PORT_UNUSED.
Proof.
  intros Hs. revert i; induction fuel as [|fuel IH]; intros i Hf; cbn [scan_ports].
  - intros _ k Hk. lia.
  - destruct (Nat.ltb_spec i MAX_CLIENTS) as [Hi|]; [|intros _ k Hk; lia].
    destruct (Z.eqb_spec (nth i used 0) VCHAN_PORT_UNUSED) as [E|E]; [discriminate|].
    intros H [|k] Hk.
    + rewrite Nat.add_0_r in *. auto.
    + assert (Hf' : (MAX_CLIENTS < fuel + (i + step))%nat) by lia.
      specialize (IH _ Hf' H k). replace (i + S k * step)%nat with (i + step + k * step)%nat in * by lia.
      auto.
Qed.

Definition slot_of (p : Z) : nat := Z.to_nat (p - 513).
Definition stride (remote d : Z) : nat * nat :=
  if d =? 0 then (0, 1)%nat else ((if d >? remote then 1 else 0)%nat, 2%nat).
Lemma eligible_slot remote d n : (n < 256)%nat ->
  eligible remote d (513 + Z.of_nat n) <-> exists k, n = (fst (stride remote d) + k * snd (stride remote d))%nat.
Proof.
  intros Hn. unfold eligible, stride.
  destruct (Z.eqb_spec d 0) as [->|Hd]; cbn [fst snd].
  - split; [intros _; exists n; lia|intros _; split; [lia|auto]].
  - rewrite (Z.gtb_ltb d remote). destruct (Z.ltb_spec remote d) as [Hr|Hr]; split.
    + intros [_ [|[[_ [m E]]|[? _]]]]; try lia. exists (Z.to_nat (m - 257)). lia.
    + intros [k ->]. split; [lia|]. right; left. split; [lia|]. exists (257 + Z.of_nat k). lia.
    + intros [_ [|[[? _]|[_ [m E]]]]]; try lia. exists (Z.to_nat (m - 256)). lia.
    + intros [k ->]. split; [lia|]. right; right. split; [lia|]. exists (256 + Z.of_nat k). lia.
Qed.
Lemma alloc_unfold s d : allocate_vchan_port s d =
  match scan_ports (S MAX_CLIENTS) (fst (stride (d_remote s) d)) (snd (stride (d_remote s) d)) (d_used s) with
  | None => None
  | Some n => Some (VCHAN_BASE_DATA_PORT + Z.of_nat n, set_used s (set_nth n d (d_used s)))
  end.
Proof. unfold allocate_vchan_port, stride. destruct (d =? 0); reflexivity. Qed.
Lemma stride_pos r d : (0 < snd (stride r d))%nat /\ (fst (stride r d) < 256)%nat.
Proof. unfold stride. destruct (d =? 0); cbn; [lia|]. destruct (d >? r); lia. Qed.
Lemma alloc_some s d p s' : allocate_vchan_port s d = Some (p, s') ->
  exists n, (n < 256)%nat /\ p = 513 + Z.of_nat n /\ nth n (d_used s) 0 = -1 /\
    s' = set_used s (set_nth n d (d_used s)) /\ eligible (d_remote s) d p.
Proof.
  rewrite alloc_unfold. destruct (stride_pos (d_remote s) d) as [Hp _].
  destruct (scan_ports _ _ _ _) as [n|] eqn:E; [|discriminate].
  intros H. apply (scan_some _ _ _ _ _ Hp) in E as (A & B & C).
  exists n. inversion H. split; [exact A|]. split; [reflexivity|]. split; [exact B|]. split; [reflexivity|].
  apply (eligible_slot _ d _ A). exact C.
Qed.
Lemma alloc_none s d : allocate_vchan_port s d = None ->
  forall p, eligible (d_remote s) d p -> nth (slot_of p) (d_used s) 0 <> -1.
Proof.
  rewrite alloc_unfold. destruct (stride_pos (d_remote s) d) as [Hp Hq].
  destruct (scan_ports _ _ _ _) as [n|] eqn:E; [discriminate|]. intros _ p Hel.
  assert (Hf : (MAX_CLIENTS < S MAX_CLIENTS + fst (stride (d_remote s) d))%nat) by lia.
  pose proof (scan_none _ _ _ _ Hp Hf E) as F.
  assert (Hr : 513 <= p < 769) by (destruct Hel; auto).
  assert (Hn : (slot_of p < 256)%nat) by (unfold slot_of; lia).
  assert (Ep : p = 513 + Z.of_nat (slot_of p)) by (unfold slot_of; lia).
  rewrite Ep in Hel. apply (eligible_slot _ d _ Hn) in Hel as [k Hk].
  rewrite Hk. apply F. rewrite <- Hk. exact Hn.
Qed.

(** ** Fields the handlers do not change *)
Lemma terminate_used s fd : d_used (terminate_client s fd) = d_used s.
Proof. reflexivity. Qed.
Lemma terminate_remote s fd : d_remote (terminate_client s fd) = d_remote s.
Proof. reflexivity. Qed.
Lemma terminate_pending s fd : d_pending (terminate_client s fd) = d_pending s.
Proof. reflexivity. Qed.
Lemma terminate_limit s fd : d_limit (terminate_client s fd) = d_limit s.
Proof. reflexivity. Qed.
Lemma release_used s p d : d_used (release_vchan_port s p d) =
  if nth (slot_of p) (d_used s) 0 =? d then set_nth (slot_of p) (-1) (d_used s) else d_used s.
Proof.
  unfold release_vchan_port. fold (slot_of p). change (p - VCHAN_BASE_DATA_PORT) with (p - 513). fold (slot_of p).
  destruct (_ =? d); [|reflexivity]. destruct (nth _ (d_notify s) None); reflexivity.
Qed.
Lemma release_rest s p d : d_remote (release_vchan_port s p d) = d_remote s /\
  d_pending (release_vchan_port s p d) = d_pending s /\ d_limit (release_vchan_port s p d) = d_limit s.
Proof.
  unfold release_vchan_port. destruct (_ =? d); [|auto]. destruct (nth _ (d_notify s) None); auto.
Qed.
Lemma close_all_fields l s : d_used (close_all l s) = d_used s /\ d_remote (close_all l s) = d_remote s /\
  d_pending (close_all l s) = d_pending s.
Proof.
  revert s; induction l as [|fd l IH]; intros s0; [auto|].
  change (close_all (fd :: l) s0) with
    (close_all l (match d_clients s0 fd with CLIENT_INVALID => s0 | _ => terminate_client s0 fd end)).
  destruct (IH (match d_clients s0 fd with CLIENT_INVALID => s0 | _ => terminate_client s0 fd end)) as (A & B & C).
  rewrite A, B, C. destruct (d_clients s0 fd); auto.
Qed.
Lemma restart_fields s v : d_used (handle_agent_restart s v) = d_used s /\
  d_remote (handle_agent_restart s v) = d_remote s /\
  d_pending (handle_agent_restart s v) = map (fun x => mkSlot 0 (s_ident x) (s_resp x)) (d_pending s) /\
  d_limit (handle_agent_restart s v) = 0%nat.
Proof.
  unfold handle_agent_restart. generalize (seq 0 MAX_CLIENTS). intros l. cbn zeta. cbn [d_used d_remote d_pending d_limit].
  destruct (close_all_fields l s) as (A & B & C). rewrite A, B, C. auto.
Qed.

(** ** A client's command *)
(** the outcome of handle_cmdline_body, field by field *)
Inductive body_result (s : daemon) (fd : nat) (type len : Z) (body : option string) (s' : daemon)
  (outs : list output) : Prop :=
| br_nothing : d_used s' = d_used s -> d_pending s' = d_pending s -> d_limit s' = d_limit s ->
    outs = [] -> body_result s fd type len body s' outs
| br_lost b i : body = Some b -> type = 514 -> find_request (d_pending s) (d_limit s) (cstr (sdrop 8 b)) = Some i ->
    d_used s' = d_used s -> d_limit s' = d_limit s ->
    d_pending s' = set_nth i (set_response R_ALLOW (nth i (d_pending s) no_slot)) (d_pending s) ->
    outs = [] -> body_result s fd type len body s' outs
| br_connect b i port text len' given : body = Some b -> type = 514 -> text = sdrop 8 b ->
    find_request (d_pending s) (d_limit s) (cstr text) = Some i ->
    d_pending s' = set_nth i (set_response R_ALLOW (nth i (d_pending s) no_slot)) (d_pending s) ->
    d_limit s' = d_limit s ->
    outs = given ++ [ToAgent type len' (u32 b) port text] ->
    (given = [] /\ d_used s' = d_used s \/
     given = [PortToClient fd (to_int (u32 b)) port] /\
     exists n, (n < 256)%nat /\ port = 513 + Z.of_nat n /\ nth n (d_used s) 0 = -1 /\
       d_used s' = set_nth n (to_int (u32 b)) (d_used s) /\ eligible (d_remote s) (to_int (u32 b)) port) ->
    body_result s fd type len body s' outs
| br_exec b port text len' given : body = Some b -> (type = 512 \/ type = 513) ->
    d_pending s' = d_pending s -> d_limit s' = d_limit s ->
    outs = given ++ [ToAgent type len' (u32 b) port text] ->
    (given = [] /\ d_used s' = d_used s \/
     given = [PortToClient fd (to_int (u32 b)) port] /\
     exists n, (n < 256)%nat /\ port = 513 + Z.of_nat n /\ nth n (d_used s) 0 = -1 /\
       d_used s' = set_nth n (to_int (u32 b)) (d_used s) /\ eligible (d_remote s) (to_int (u32 b)) port) ->
    body_result s fd type len body s' outs.

Lemma alloc_release_used s fd d n : (n < length (d_used s))%nat -> nth n (d_used s) 0 = -1 ->
  d_used (release_vchan_port
           (terminate_client
             (set_notify (set_used s (set_nth n d (d_used s)))
               (set_nth (Z.to_nat (513 + Z.of_nat n - VCHAN_BASE_DATA_PORT)) (Some fd)
                 (d_notify (set_used s (set_nth n d (d_used s)))))) fd)
           (513 + Z.of_nat n) d) = d_used s.
Proof.
  intros Hn E. rewrite release_used, terminate_used. cbn [set_notify set_used d_used].
  assert (Es : slot_of (513 + Z.of_nat n) = n) by (unfold slot_of; lia). rewrite Es.
  rewrite set_nth_same by exact Hn. rewrite Z.eqb_refl, set_nth_twice, <- E. apply set_nth_id, Hn.
Qed.

Lemma body_cases du s fd type len body ok s' outs stays :
  length (d_used s) = 256%nat ->
  handle_cmdline_body du s fd type len body ok = (s', outs, stays) ->
  d_remote s' = d_remote s /\ body_result s fd type len body s' outs.
Proof.
  intros Hlen. unfold handle_cmdline_body.
  destruct (len <=? sizeof_exec_params). { intros H; inversion H; subst. split; [reflexivity|now apply br_nothing]. }
  destruct (len >? MAX_QREXEC_CMD_LEN). { intros H; inversion H; subst. split; [reflexivity|now apply br_nothing]. }
  destruct body as [b|]. 2:{ intros H; inversion H; subst. split; [reflexivity|now apply br_nothing]. }
  set (buf := sdrop 8 b). set (dom := u32 b). set (port0 := u32 (sdrop 4 b)).
  destruct (negb _). { intros H; inversion H; subst. split; [reflexivity|now apply br_nothing]. }
  destruct (Z.eqb_spec type MSG_SERVICE_CONNECT) as [Et|Et].
  - (* connect *)
    cbn [negb andb].
    destruct (find_request (d_pending s) (d_limit s) (cstr buf)) as [i|] eqn:Ef.
    2:{ intros H; inversion H; subst. split; [reflexivity|now apply br_nothing]. }
    set (s1 := set_pending s _ _).
    destruct (port0 =? 0).
    + destruct (allocate_vchan_port s1 (to_int dom)) as [[port s2]|] eqn:Ea.
      * apply alloc_some in Ea as (n & Hn & Ep & Eu & -> & Hel).
        destruct ok.
        -- intros H; inversion H; subst s' outs stays. split; [reflexivity|].
           eapply br_connect with (given := [PortToClient fd (to_int dom) port]); try reflexivity; eauto.
           right. split; [reflexivity|]. exists n. split; [exact Hn|]. split; [exact Ep|]. split; [exact Eu|].
           split; [reflexivity|]. exact Hel.
        -- intros H; inversion H; subst s' outs stays. subst port.
           match goal with |- context [release_vchan_port ?st ?p ?d] => destruct (release_rest st p d) as [E0 [E1 E2]] end.
           split. { rewrite E0. reflexivity. }
           eapply br_lost; try reflexivity; eauto.
           apply (alloc_release_used s1); [|exact Eu]. cbn [s1 set_pending d_used]. rewrite Hlen. exact Hn.
      * intros H; inversion H; subst. split; [reflexivity|]. eapply br_lost; try reflexivity; eauto.
    + destruct (_ && _).
      * intros H; inversion H; subst s' outs stays. split; [reflexivity|].
        eapply br_connect with (given := []); try reflexivity; eauto.
      * intros H; inversion H; subst. split; [reflexivity|]. eapply br_lost; try reflexivity; eauto.
  - cbn [negb andb].
    destruct ((type =? MSG_JUST_EXEC) || (type =? MSG_EXEC_CMDLINE)) eqn:Ek.
    2:{ intros H; inversion H; subst. split; [reflexivity|now apply br_nothing]. }
    assert (Hk : type = 512 \/ type = 513).
    { apply orb_prop in Ek as [Ek|Ek]; apply Z.eqb_eq in Ek; auto. }
    destruct (port0 =? 0).
    + destruct (allocate_vchan_port s (to_int dom)) as [[port s2]|] eqn:Ea.
      * apply alloc_some in Ea as (n & Hn & Ep & Eu & -> & Hel).
        destruct ok.
        -- destruct (starts default_user_keyword buf);
           intros H; inversion H; subst s' outs stays; (split; [reflexivity|]);
           (eapply br_exec with (given := [PortToClient fd (to_int dom) port]); try reflexivity; eauto;
            right; split; [reflexivity|]; exists n; split; [exact Hn|]; split; [exact Ep|]; split; [exact Eu|];
            split; [reflexivity|]; exact Hel).
        -- intros H; inversion H; subst s' outs stays. subst port.
           match goal with |- context [release_vchan_port ?st ?p ?d] => destruct (release_rest st p d) as [E0 [E1 E2]] end.
           split. { rewrite E0. reflexivity. }
           apply br_nothing; [|rewrite E1; reflexivity|rewrite E2; reflexivity|reflexivity].
           apply (alloc_release_used s); [|exact Eu]. rewrite Hlen. exact Hn.
      * intros H; inversion H; subst. split; [reflexivity|]. now apply br_nothing.
    + destruct (_ && _).
      * destruct (starts default_user_keyword buf);
        intros H; inversion H; subst s' outs stays; (split; [reflexivity|]);
        (eapply br_exec with (given := []); try reflexivity; eauto).
      * intros H; inversion H; subst. split; [reflexivity|]. now apply br_nothing.
Qed.

Lemma body_result_ext s fd type len body s' s'' outs : body_result s fd type len body s' outs ->
  d_used s'' = d_used s' -> d_pending s'' = d_pending s' -> d_limit s'' = d_limit s' ->
  body_result s fd type len body s'' outs.
Proof.
  intros H E1 E2 E3.
  destruct H; rewrite <- ?E1, <- ?E2, <- ?E3 in *;
    [apply br_nothing|eapply br_lost|eapply br_connect|eapply br_exec]; eauto.
Qed.

Lemma client_step du s fd m ok s' outs : length (d_used s) = 256%nat ->
  handle_message_from_client du s fd m ok = (s', outs) ->
  d_remote s' = d_remote s /\
  (d_used s' = d_used s /\ d_pending s' = d_pending s /\ d_limit s' = d_limit s /\ outs = [] \/
   exists type len bytes, m = ClientMessage type len bytes /\
     body_result s fd type len (received len bytes) s' outs /\ d_clients s fd = CLIENT_CMDLINE).
Proof.
  intros Hlen. unfold handle_message_from_client.
  destruct (d_clients s fd) eqn:Ec.
  - intros H; inversion H; subst; auto 6.
  - destruct m as [|type len bytes]. { intros H; inversion H; subst; auto 6. }
    destruct (negb _). { intros H; inversion H; subst; auto 6. }
    destruct (received len bytes) as [b|]. 2:{ intros H; inversion H; subst; auto 6. }
    destruct (_ <? _); intros H; inversion H; subst; auto 6.
  - destruct m as [|type len bytes]. { intros H; inversion H; subst; auto 6. }
    destruct (_ || _ || _). 2:{ intros H; inversion H; subst; auto 6. }
    destruct (handle_cmdline_body du s fd type len (received len bytes) ok) as [[s1 outs1] stays] eqn:Eb.
    apply (body_cases _ _ _ _ _ _ _ _ _ _ Hlen) in Eb as [Er Eb].
    intros H; inversion H; subst outs1 s'. split.
    { destruct stays; exact Er. }
    right. exists type, len, bytes. split; [reflexivity|]. split; [|reflexivity].
    eapply body_result_ext; [exact Eb| | |]; destruct stays; reflexivity.
  - intros H; inversion H; subst; auto 6.
Qed.

Lemma received_some len bytes b : received len bytes = Some b ->
  b = stake (Z.to_nat len) bytes /\ len <= Z.of_nat (String.length bytes).
Proof.
  unfold received. destruct (_ >=? len) eqn:E; [|discriminate]. intros H; inversion H. split; [reflexivity|].
  rewrite Z.geb_leb in E. apply Z.leb_le in E. exact E.
Qed.
Lemma stake_u32 n s : (4 <= n)%nat -> u32 (stake n s) = u32 s.
Proof.
  intros H. unfold u32. f_equal. f_equal.
  do 4 (destruct n as [|n]; [lia|]). 
  destruct s as [|a s]; [reflexivity|]. destruct s as [|b s]; [reflexivity|].
  destruct s as [|c s]; [reflexivity|]. destruct s as [|d s]; [reflexivity|]. reflexivity.
Qed.

(** body_result only concerns bodies longer than the fixed part *)
Lemma body_long du s fd type len body ok s' outs stays :
  handle_cmdline_body du s fd type len body ok = (s', outs, stays) -> outs <> [] ->
  8 < len <= 65535 /\ exists b, body = Some b.
Proof.
  unfold handle_cmdline_body. unfold sizeof_exec_params, MAX_QREXEC_CMD_LEN.
  destruct (Z.leb_spec len 8) as [Ha|H8]. { intros H; inversion H; subst; congruence. }
  rewrite Z.gtb_ltb. destruct (Z.ltb_spec 65535 len) as [Ha|H9]. { intros H; inversion H; subst; congruence. }
  destruct body as [b|]. { intros _ _. split; [lia|eauto]. }
  intros H; inversion H; subst; congruence.
Qed.

(** ** Ports *)
Lemma client_names du s fd m ok s' outs : handle_message_from_client du s fd m ok = (s', outs) -> outs <> [] ->
  exists type len bytes b, m = ClientMessage type len bytes /\ received len bytes = Some b /\
    8 < len <= 65535 /\ names_domain (FromClient fd m ok) (to_int (u32 b)).
Proof.
  unfold handle_message_from_client. destruct (d_clients s fd) eqn:Ec.
  - intros H; inversion H; congruence.
  - destruct m as [|type len bytes]. { intros H; inversion H; congruence. }
    destruct (negb _). { intros H; inversion H; congruence. }
    destruct (received len bytes) as [b|]. 2:{ intros H; inversion H; congruence. }
    destruct (_ <? _); intros H; inversion H; congruence.
  - destruct m as [|type len bytes]. { intros H; inversion H; congruence. }
    destruct (_ || _ || _). 2:{ intros H; inversion H; congruence. }
    destruct (handle_cmdline_body du s fd type len (received len bytes) ok) as [[s1 outs1] stays] eqn:Eb.
    intros H Ho; inversion H; subst outs1. destruct (body_long _ _ _ _ _ _ _ _ _ _ Eb Ho) as (Hl & b & Er).
    exists type, len, bytes, b. split; [reflexivity|]. split; [exact Er|]. split; [exact Hl|].
    apply received_some in Er as (-> & Hb). rewrite stake_u32 by lia.
    assert (Hb4 : (4 <= String.length bytes)%nat) by lia.
    destruct (four_bytes _ Hb4) as (a0 & a1 & a2 & a3 & r & ->).
    exists fd, type, len, a0, a1, a2, a3, r, ok. split; [reflexivity|].
    rewrite u32_cons. apply signed_iff; [apply number_range|reflexivity].
  - intros H; inversion H; congruence.
Qed.

(** what an event does to the table of ports *)
Inductive port_step (s : daemon) (ev : devent) (outs : list output) (s' : daemon) : Prop :=
| ps_same : d_used s' = d_used s -> (forall d p, ~ hands_out outs d p) -> (forall d p, ~ reports_end ev d p) ->
    port_step s ev outs s'
| ps_give fd d p n type len text : outs = [PortToClient fd d p; ToAgent type len (if d <? 0 then d + 4294967296 else d) p text] ->
    (n < 256)%nat -> p = 513 + Z.of_nat n -> nth n (d_used s) 0 = -1 -> d_used s' = set_nth n d (d_used s) ->
    eligible (d_remote s) d p -> names_domain ev d -> (forall d p, ~ reports_end ev d p) -> port_step s ev outs s'
| ps_end d p : outs = [] -> reports_end ev d p -> (forall d' p', reports_end ev d' p' -> d' = d /\ p' = p) ->
    513 <= p < 769 -> d_used s' = (if nth (slot_of p) (d_used s) 0 =? d then set_nth (slot_of p) (-1) (d_used s) else d_used s) ->
    port_step s ev outs s'.

Lemma not_end_agent type len body pid d p : type <> 529 -> ~ reports_end (FromAgent type len body pid) d p.
Proof. intros H (a0 & a1 & a2 & a3 & b0 & b1 & b2 & b3 & q & E & _). inversion E. congruence. Qed.
Lemma no_give (outs : list output) : (forall o, In o outs -> match o with PortToClient _ _ _ => False | _ => True end) ->
  forall d p, ~ hands_out outs d p.
Proof. intros H d p (fd & Hin). exact (H _ Hin). Qed.
Lemma pair_eq {A B} (a a' : A) (b b' : B) : (a, b) = (a', b') -> a = a' /\ b = b'.
Proof. intros H. inversion H. auto. Qed.
Definition reap_slot (x : slot) (code : Z) : response * list output :=
  if code =? 0 then (R_ALLOW, [])
  else match s_resp x with R_PENDING => (R_DENY, [Refused (s_ident x)]) | r => (r, []) end.
Lemma reap_unfold s pid code s' outs : reap_child s pid (Exited code) = (s', outs) ->
  match find_pid (d_pending s) (d_limit s) pid with
  | None => s' = s /\ outs = []
  | Some i =>
      let x := nth i (d_pending s) no_slot in
      let l := set_nth i (mkSlot 0 (s_ident x) (fst (reap_slot x code))) (d_pending s) in
      outs = snd (reap_slot x code) /\ d_pending s' = l /\ d_limit s' = shrink MAX_CLIENTS (d_limit s) l /\
      d_used s' = d_used s /\ d_remote s' = d_remote s
  end.
Proof.
  unfold reap_child. generalize MAX_CLIENTS. intros M.
  destruct (find_pid _ _ _) as [i|]. 2:{ intros H; inversion H; subst; auto. }
  cbn zeta. unfold reap_slot. set (x := nth i (d_pending s) no_slot).
  destruct (code =? 0).
  - intros H. apply pair_eq in H as [<- <-]. cbn [fst snd set_pending d_pending d_limit d_used d_remote]. auto.
  - destruct (s_resp x); intros H; apply pair_eq in H as [<- <-]; cbn [fst snd set_pending d_pending d_limit d_used d_remote]; auto.
Qed.
Lemma reap_outs s pid k s' outs : reap_child s pid k = (s', outs) ->
  d_used s' = d_used s /\ d_remote s' = d_remote s /\ (outs = [] \/ exists x, outs = [Refused x]).
Proof.
  destruct k as [code|]. 2:{ intros H; inversion H; subst; auto. }
  intros H. apply reap_unfold in H. destruct (find_pid _ _ _) as [i|].
  - cbn zeta in H. destruct H as (E & _ & _ & E1 & E2). split; [exact E1|]. split; [exact E2|].
    unfold reap_slot in E. destruct (code =? 0); [auto|]. destruct (s_resp _); cbn [snd] in E; eauto.
  - destruct H as [-> ->]. auto.
Qed.
Lemma exec_service_outs s x pid s' outs : handle_execute_service s x pid = (s', outs) ->
  d_used s' = d_used s /\ d_remote s' = d_remote s /\ (outs = [] \/ outs = [Refused x]).
Proof.
  unfold handle_execute_service. destruct (free_slot _); intros H; inversion H; subst; auto.
Qed.
Lemma agent_type v type len body : handle_message_from_agent v type len body <> DaemonExits ->
  type = 528 \/ type = 530 \/ type = 531 \/ (type = 529 /\ len = 8 /\ String.length body = 8%nat).
Proof.
  unfold handle_message_from_agent. destruct (sanitize_message_from_agent v type len) eqn:Es; cbn [negb]; [|congruence].
  apply header_spec in Es. destruct (Z.eqb_spec (Z.of_nat (String.length body)) len) as [El|El]; cbn [negb]; [|congruence].
  intros _. destruct Es; auto. right; right; right. split; [auto|]. split; [auto|]. lia.
Qed.
Lemma agent_529 v type len body : type = 529 -> handle_message_from_agent v type len body <> DaemonExits ->
  handle_message_from_agent v type len body = PortReleased (u32 body) (u32 (sdrop 4 body)) /\
  513 <= u32 (sdrop 4 body) < 769 /\ len = 8 /\ String.length body = 8%nat.
Proof.
  intros Et H. destruct (agent_type _ _ _ _ H) as [|[|[|(_ & El & Eb)]]]; try congruence.
  revert H. unfold handle_message_from_agent. subst type len. cbn [negb].
  destruct (negb (sanitize_message_from_agent v 529 8)); [congruence|].
  destruct (negb _); [congruence|].
  change (529 =? MSG_TRIGGER_SERVICE) with false. change (529 =? MSG_TRIGGER_SERVICE3) with false.
  change (529 =? MSG_TRIGGER_SERVICE4) with false. cbn match. unfold handle_connection_terminated.
  destruct ((_ <? 513) || _) eqn:E; [congruence|]. intros _. apply orb_false_elim in E as [E1 E2].
  rewrite Z.geb_leb in E2. apply Z.ltb_ge in E1. apply Z.leb_gt in E2. split; [reflexivity|]. split; [lia|]. auto.
Qed.
Lemma trigger_kinds src tgt ident name : match trigger src tgt ident name with
  | RefuseCall r => r = ident | ServiceCall _ _ _ x => x = cstr ident | _ => False end.
Proof.
  unfold trigger. destruct (negb _); [auto|]. destruct (negb _); [auto|]. destruct (negb _); [auto|].
  destruct (validate_service_name name); auto.
Qed.
(** the identifier of a call, whichever way it is treated *)
Lemma agent_call v type len body pid x : asks (FromAgent type len body pid) = Some x ->
  match handle_message_from_agent v type len body with
  | RefuseCall raw => cstr raw = x
  | ServiceCall _ _ _ ident => ident = x
  | DaemonExits => True
  | PortReleased _ _ => False
  end.
Proof.
  unfold asks, handle_message_from_agent. destruct (negb _); [auto|]. destruct (negb _); [auto|].
  change MSG_TRIGGER_SERVICE with 528. change MSG_TRIGGER_SERVICE3 with 530. change MSG_TRIGGER_SERVICE4 with 531.
  destruct (type =? 528).
  { intros H; inversion H. destruct (negb _); [auto|]. destruct (validate_service_name _); auto. }
  destruct (type =? 530).
  { intros H; inversion H. match goal with |- context [trigger ?a ?b ?c ?d] => pose proof (trigger_kinds a b c d) as K; destruct (trigger a b c d) end; subst; auto. }
  destruct (type =? 531); [|discriminate].
  intros H; inversion H. match goal with |- context [trigger ?a ?b ?c ?d] => pose proof (trigger_kinds a b c d) as K; destruct (trigger a b c d) end; subst; auto.
Qed.
Lemma agent_asks v type len body pid : handle_message_from_agent v type len body <> DaemonExits -> type <> 529 ->
  exists x, asks (FromAgent type len body pid) = Some x.
Proof.
  intros H Ht. destruct (agent_type _ _ _ _ H) as [->|[->|[->|(? & _)]]]; try congruence; cbn; eauto.
Qed.

Lemma step_ports du s ev s' outs : length (d_used s) = 256%nat -> dstep du s ev = Some (s', outs) ->
  d_remote s' = d_remote s /\ port_step s ev outs s'.
Proof.
  intros Hlen. destruct ev as [fd h|fd m ok|type len body pid|pid k|v]; cbn [dstep].
  - unfold handle_new_client. destruct (_ <? _)%nat; cbn [option_map]; [|discriminate]. intros H; inversion H; subst.
    split; [reflexivity|]. apply ps_same; [reflexivity|intros ? ? [? []]|].
    intros ? ? (a0 & a1 & a2 & a3 & b0 & b1 & b2 & b3 & q & E & _). discriminate E.
  - intros H. assert (H1 : handle_message_from_client du s fd m ok = (s', outs)) by congruence.
    assert (Hno : forall d p, ~ reports_end (FromClient fd m ok) d p).
    { intros ? ? (a0 & a1 & a2 & a3 & b0 & b1 & b2 & b3 & q & E & _). discriminate E. }
    pose proof (client_step _ _ _ _ _ _ _ Hlen H1) as [Er [(E1 & _ & _ & ->)|(type & len & bytes & Em & B & _)]].
    { split; [auto|]. apply ps_same; [auto|intros ? ? [? []]|auto]. }
    split; [exact Er|].
    assert (G : forall b port text given len', received len bytes = Some b ->
      outs = given ++ [ToAgent type len' (u32 b) port text] ->
      (given = [] /\ d_used s' = d_used s \/
       given = [PortToClient fd (to_int (u32 b)) port] /\
       exists n, (n < 256)%nat /\ port = 513 + Z.of_nat n /\ nth n (d_used s) 0 = -1 /\
         d_used s' = set_nth n (to_int (u32 b)) (d_used s) /\ eligible (d_remote s) (to_int (u32 b)) port) ->
      port_step s (FromClient fd m ok) outs s').
    { intros b port text given len' Hb Ho [[-> Eu]|[-> (n & Hn & Ep & Eu & Eu' & Hel)]].
      - apply ps_same; [exact Eu| |exact Hno]. subst outs. apply no_give. intros o [<-|[]]. exact I.
      - assert (Hne : outs <> []) by (subst outs; discriminate).
        destruct (client_names _ _ _ _ _ _ _ H1 Hne) as (ty & ln & by_ & b' & Em' & Hr & Hl & Hn').
        rewrite Em in Em'. inversion Em'; subst ty ln by_. rewrite Hb in Hr. inversion Hr; subst b'.
        eapply ps_give; [|exact Hn|exact Ep|exact Eu|exact Eu'|exact Hel|exact Hn'|exact Hno].
        rewrite Ho. cbn [app]. f_equal. f_equal. f_equal.
        destruct Hn' as (? & ? & ? & a0 & a1 & a2 & a3 & r & ? & Ev & Hs).
        apply received_some in Hb as (-> & Hlb). rewrite stake_u32 by lia. rewrite Em in Ev.
        assert (Eby : bytes = String a0 (String a1 (String a2 (String a3 r)))) by congruence.
        rewrite Eby, u32_cons. pose proof (number_range a0 a1 a2 a3) as R.
        unfold to_int. destruct (Z.ltb_spec (number a0 a1 a2 a3) 2147483648) as [X|X].
        + destruct (Z.ltb_spec (number a0 a1 a2 a3) 0); lia.
        + destruct (Z.ltb_spec (number a0 a1 a2 a3 - 4294967296) 0); lia. }
    destruct B as [Eu _ _ -> | b i _ _ _ Eu _ _ -> | b i port text len' given Hb Ht Etx Hf _ _ Ho Hg | b port text len' given Hb Ht _ _ Ho Hg].
    + apply ps_same; [auto|intros ? ? [? []]|auto].
    + apply ps_same; [auto|intros ? ? [? []]|auto].
    + exact (G _ _ _ _ _ Hb Ho Hg).
    + exact (G _ _ _ _ _ Hb Ho Hg).
  - destruct (Z.eq_dec type 529) as [Et|Et].
    + destruct (handle_message_from_agent (d_version s) type len body) eqn:Ea; try discriminate;
      (assert (Hne : handle_message_from_agent (d_version s) type len body <> DaemonExits) by congruence);
      destruct (agent_529 _ _ _ _ Et Hne) as (Eq & Hr & El & Eb); rewrite Ea in Eq; try discriminate Eq.
      inversion Eq; subst domain port. intros H; inversion H; subst s' outs.
      split; [apply release_rest|].
      assert (Hre : forall d p, reports_end (FromAgent type len body pid) d p <-> d = to_int (u32 body) /\ p = u32 (sdrop 4 body)).
      { intros d p. rewrite reports_end_iff. split.
        - intros (b' & q & E & _ & -> & ->). inversion E; subst. auto.
        - intros [-> ->]. exists body, pid. subst. auto. }
      eapply ps_end with (d := to_int (u32 body)) (p := u32 (sdrop 4 body)); [reflexivity| | |exact Hr|].
      * apply Hre. auto.
      * intros d' p' H'. apply Hre in H'. exact H'.
      * apply release_used.
    + pose proof (fun d p => not_end_agent type len body pid d p Et) as Hno.
      assert (Hns := Hno).
      destruct (handle_message_from_agent (d_version s) type len body) as [|raw|rs t sv x|dm pt] eqn:Ea; [discriminate| | |].
      * intros H; inversion H; subst. split; [reflexivity|]. apply ps_same; [reflexivity| |exact Hns].
        apply no_give. intros o [<-|[]]; exact I.
      * intros H. assert (H1 : handle_execute_service s x pid = (s', outs)) by congruence.
        apply exec_service_outs in H1 as (E1 & E2 & E3). split; [exact E2|]. apply ps_same; [exact E1| |exact Hns].
        apply no_give. destruct E3 as [->| ->]; intros o; [intros []|intros [<-|[]]; exact I].
      * assert (Hne : handle_message_from_agent (d_version s) type len body <> DaemonExits) by congruence.
        destruct (agent_asks _ _ _ _ pid Hne Et) as [x Hx]. pose proof (agent_call (d_version s) _ _ _ _ _ Hx) as C.
        rewrite Ea in C. destruct C.
  - intros H. assert (H1 : (if pid >? 0 then reap_child s pid k else (s, [])) = (s', outs)) by congruence.
    assert (H2 : d_used s' = d_used s /\ d_remote s' = d_remote s /\ (outs = [] \/ exists x, outs = [Refused x])).
    { destruct (pid >? 0); [now apply reap_outs in H1|]. apply pair_eq in H1 as [<- <-]. auto. }
    destruct H2 as (E1 & E2 & E3). split; [exact E2|]. apply ps_same; [exact E1| |].
    + apply no_give. destruct E3 as [->|[x ->]]; intros o; [intros []|intros [<-|[]]; exact I].
    + intros ? ? (a0 & a1 & a2 & a3 & b0 & b1 & b2 & b3 & q & E & _). discriminate E.
  - intros H. assert (E : s' = handle_agent_restart s v /\ outs = []) by (split; congruence). destruct E as [-> ->].
    destruct (restart_fields s v) as (E1 & E2 & _). split; [exact E2|]. apply ps_same; [exact E1|intros ? ? [? []]|].
    intros ? ? (a0 & a1 & a2 & a3 & b0 & b1 & b2 & b3 & q & E & _). discriminate E.
Qed.

Record port_inv (remote : Z) (h : history) (s : daemon) : Prop := {
  pi_len : length (d_used s) = 256%nat;
  pi_remote : d_remote s = remote;
  pi_use : forall d p, in_use h d p -> 513 <= p < 769 /\ d <> -1 /\ nth (slot_of p) (d_used s) 0 = d;
  pi_free : forall n, (n < 256)%nat -> nth n (d_used s) 0 <> -1 -> in_use h (nth n (d_used s) 0) (513 + Z.of_nat n)
}.
Lemma in_use_nil d p : ~ in_use [] d p.
Proof. intros H. inversion H. Qed.
Lemma in_use_inv e h d p : in_use (e :: h) d p -> hands_out (snd e) d p \/ in_use h d p /\ ~ reports_end (fst e) d p.
Proof. intros H. inversion H; subst; cbn; auto. Qed.
Lemma reports_end_fun ev d p d' p' : reports_end ev d p -> reports_end ev d' p' -> d = d' /\ p = p'.
Proof.
  rewrite !reports_end_iff. intros (b & q & -> & _ & -> & ->) (b' & q' & E & _ & -> & ->). inversion E; auto.
Qed.

Theorem port_inv_holds du remote version h s : runs du remote version h s -> sane_domains h -> port_inv remote h s.
Proof.
  induction 1 as [|h s ev outs s' Hr IH Hs]; intros Hsane.
  - split.
    + apply repeat_length.
    + reflexivity.
    + intros d p Hu. now apply in_use_nil in Hu.
    + intros n Hn Hne. exfalso. apply Hne. cbn [init d_used].
      clear -Hn. assert (Hin : In (nth n (repeat VCHAN_PORT_UNUSED MAX_CLIENTS) 0) (repeat VCHAN_PORT_UNUSED MAX_CLIENTS)).
      { apply nth_In. rewrite repeat_length. exact Hn. }
      apply repeat_spec in Hin. exact Hin.
  - assert (Hs0 : sane_domains h) by (intros e o Hi; apply (Hsane e o); now right).
    destruct (IH Hs0) as [L R U F]. clear IH.
    destruct (step_ports _ _ _ _ _ L Hs) as [Er P].
    destruct P as [Eu Hg He | fd d p n ty ln tx Ho Hn Ep Eu Eu' Hel Hnd He | d p Ho He Hun Hp Eu].
    + split.
      * now rewrite Eu.
      * congruence.
      * intros d p Hu. apply in_use_inv in Hu as [Hu|[Hu _]]; [now apply Hg in Hu|]. rewrite Eu. auto.
      * intros n Hn Hne. rewrite Eu in *. apply iu_still; [auto|apply He].
    + assert (Hd : d <> -1). { intros ->. apply (Hsane ev outs); [now left|exact Hnd]. }
      assert (Esl : slot_of p = n) by (unfold slot_of; lia).
      split.
      * rewrite Eu', set_nth_length. exact L.
      * congruence.
      * intros d' p' Hu. apply in_use_inv in Hu as [Hu|[Hu _]].
        -- destruct Hu as (fd' & Hi). cbn [snd] in Hi. rewrite Ho in Hi. destruct Hi as [Hi|[Hi|[]]]; [|discriminate Hi].
           inversion Hi; subst d' p'. split; [lia|]. split; [exact Hd|]. rewrite Eu', Esl. apply set_nth_same. lia.
        -- destruct (U _ _ Hu) as (A & B & C). split; [exact A|]. split; [exact B|].
           rewrite Eu'. rewrite set_nth_other; [exact C|]. intros E. subst n. rewrite E, C in Eu. congruence.
      * intros m Hm Hne. rewrite Eu' in *. destruct (Nat.eq_dec n m) as [<-|Hnm].
        -- rewrite set_nth_same by lia. apply iu_now. exists fd. rewrite Ho, <- Ep. now left.
        -- rewrite set_nth_other in * by exact Hnm. apply iu_still; [auto|apply He].
    + assert (Hsl : (slot_of p < 256)%nat) by (unfold slot_of; lia).
      split.
      * rewrite Eu. destruct (_ =? d); [rewrite set_nth_length|]; exact L.
      * congruence.
      * intros d' p' Hu. apply in_use_inv in Hu as [(fd & Hu)|[Hu Hne]]. { cbn in Hu. rewrite Ho in Hu. destruct Hu. }
        cbn [fst] in Hne. destruct (U _ _ Hu) as (A & B & C). split; [exact A|]. split; [exact B|].
        rewrite Eu. destruct (Z.eqb_spec (nth (slot_of p) (d_used s) 0) d) as [E|E]; [|exact C].
        rewrite set_nth_other; [exact C|]. intros E'. apply Hne.
        assert (p' = p) by (unfold slot_of in E'; lia). subst p'. rewrite <- C, E. exact He.
      * intros n Hn Hne. rewrite Eu in *. destruct (Z.eqb_spec (nth (slot_of p) (d_used s) 0) d) as [E|E].
        -- destruct (Nat.eq_dec (slot_of p) n) as [<-|Hnm].
           { rewrite set_nth_same in Hne by lia. congruence. }
           rewrite set_nth_other in * by exact Hnm. apply iu_still; [auto|].
           intros Hre. destruct (Hun _ _ Hre) as [_ Ep]. unfold slot_of in Hnm. lia.
        -- apply iu_still; [auto|]. intros Hre. destruct (Hun _ _ Hre) as [Ed Ep].
           apply E. replace (slot_of p) with n by (unfold slot_of; lia). exact Ed.
Qed.
