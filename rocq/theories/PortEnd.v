(** * C78: a client of the daemon learns of the end of the connection it set up *)
From Coq Require Import String Ascii List Bool Arith ZArith Lia.
From Verif Require Import Base Sanitize DaemonAgent DaemonState SpecState StateProofs CallsProofs SpecPortEnd.
Import ListNotations.
Open Scope string_scope.
Open Scope list_scope.
Open Scope Z_scope.

Definition cleared (fd : nat) (l : list (option nat)) : list (option nat) :=
  map (fun o => if match o with Some f => Nat.eqb f fd | None => false end then None else o) l.
Lemma cleared_nth fd l n f : nth n (cleared fd l) None = Some f <-> nth n l None = Some f /\ f <> fd.
Proof.
  unfold cleared. set (g := fun o : option nat => _). change None with (g None) at 1. rewrite map_nth. unfold g.
  destruct (nth n l None) as [f'|]; [|split; [discriminate|intros [? _]; discriminate]].
  destruct (Nat.eqb_spec f' fd); split; try discriminate; intuition congruence.
Qed.
Lemma cleared_length fd l : length (cleared fd l) = length l.
Proof. apply map_length. Qed.
Lemma terminate_notify s fd : d_notify (terminate_client s fd) = cleared fd (d_notify s).
Proof. reflexivity. Qed.
Lemma terminate_clients s fd g : d_clients (terminate_client s fd) g = if Nat.eqb g fd then CLIENT_INVALID else d_clients s g.
Proof. reflexivity. Qed.

(** ** The table of clients to tell, in one step *)
Inductive notify_result (s : daemon) (fd : nat) (s' : daemon) (outs : list output) : Prop :=
| nr_given n d o : outs = [PortToClient fd d (513 + Z.of_nat n); o] -> (forall f d p, o <> PortToClient f d p) -> (n < 256)%nat ->
    nth n (d_used s) 0 = -1 -> d_notify s' = set_nth n (Some fd) (d_notify s) -> d_clients s' fd = CLIENT_RUNNING ->
    notify_result s fd s' outs
| nr_kept : (forall f d p, ~ In (PortToClient f d p) outs) -> d_notify s' = d_notify s -> notify_result s fd s' outs
| nr_left : outs = [] -> d_notify s' = cleared fd (d_notify s) -> notify_result s fd s' outs
| nr_failed n : outs = [] -> nth n (d_used s) 0 = -1 -> (n < 256)%nat -> d_notify s' = cleared fd (set_nth n (Some fd) (d_notify s)) -> notify_result s fd s' outs.

Lemma body_notify du s fd type len body ok s' outs stays :
  length (d_used s) = 256%nat -> length (d_notify s) = 256%nat ->
  handle_cmdline_body du s fd type len body ok = (s', outs, stays) ->
  (forall g, g <> fd -> d_clients s' g = d_clients s g) /\
  if stays then notify_result s fd (set_clients s' (upd (d_clients s') fd CLIENT_RUNNING)) outs
  else notify_result s fd s' outs /\ d_clients s' fd = CLIENT_INVALID /\ forall n, nth n (d_notify s') None <> Some fd.
Proof.
  intros Hlu Hln. unfold handle_cmdline_body. cbv zeta.
  assert (Hno : forall t n, nth n (d_notify (terminate_client t fd)) None <> Some fd).
  { intros t n. rewrite terminate_notify, cleared_nth. intros [_ X]. congruence. }
  assert (F : forall t, (forall g, d_clients t g = d_clients s g) -> d_notify t = d_notify s -> (terminate_client t fd, [], false) = (s', outs, stays) ->
    (forall g, g <> fd -> d_clients s' g = d_clients s g) /\
    if stays then notify_result s fd (set_clients s' (upd (d_clients s') fd CLIENT_RUNNING)) outs
    else notify_result s fd s' outs /\ d_clients s' fd = CLIENT_INVALID /\ forall n, nth n (d_notify s') None <> Some fd).
  { intros t Ht Hn H. injection H as <- <- <-. split; [intros g Hg; rewrite terminate_clients; apply Nat.eqb_neq in Hg; rewrite Hg; apply Ht|].
    split; [|split; [rewrite terminate_clients, Nat.eqb_refl; reflexivity|apply Hno]]. apply nr_left; [reflexivity|]. rewrite terminate_notify, Hn. reflexivity. }
  destruct (len <=? _); [apply F; auto|]. destruct (len >? _); [apply F; auto|].
  destruct body as [b|]; [|apply F; auto].
  destruct (negb (String.eqb _ _)); [apply F; auto|].
  set (granted := if type =? MSG_SERVICE_CONNECT then _ else _).
  assert (Hg : forall s1, granted = Some s1 -> (forall g, d_clients s1 g = d_clients s g) /\ d_notify s1 = d_notify s /\ d_used s1 = d_used s).
  { intros s1. unfold granted. destruct (type =? MSG_SERVICE_CONNECT).
    - destruct (find_request _ _ _); [|discriminate]. intros H; injection H as <-. auto.
    - destruct (_ || _); [|discriminate]. intros H; injection H as <-. auto. }
  destruct granted as [s1|]; [|apply F; auto]. specialize (Hg s1 eq_refl) as (Hg & Hnot & Hus).
  assert (Fw : forall s2 port outs0, (forall g, d_clients s2 g = d_clients s g) ->
    (forall o, (forall f d p, o <> PortToClient f d p) -> notify_result s fd (set_clients s2 (upd (d_clients s2) fd CLIENT_RUNNING)) (outs0 ++ [o])) ->
    (if negb (type =? MSG_SERVICE_CONNECT) && starts default_user_keyword (sdrop 8 b)
     then (s2, outs0 ++ [ToAgent type (len - 7 + Z.of_nat (String.length du)) (u32 b) port (du +++ sdrop 7 (sdrop 8 b))], true)
     else (s2, outs0 ++ [ToAgent type len (u32 b) port (sdrop 8 b)], true)) = (s', outs, stays) ->
    (forall g, g <> fd -> d_clients s' g = d_clients s g) /\
    if stays then notify_result s fd (set_clients s' (upd (d_clients s') fd CLIENT_RUNNING)) outs
    else notify_result s fd s' outs /\ d_clients s' fd = CLIENT_INVALID /\ forall n, nth n (d_notify s') None <> Some fd).
  { intros s2 port outs0 H2 H0 H.
    destruct (negb (type =? _) && _); injection H as <- <- <-; (split; [auto|apply H0; discriminate]). }
  destruct (u32 (sdrop 4 b) =? 0).
  - destruct (allocate_vchan_port s1 (to_int (u32 b))) as [[port s2]|] eqn:Ea; [|apply F; auto].
    apply alloc_some in Ea as (n & Hn & Ep & Eu & -> & _).
    assert (Esl : Z.to_nat (port - VCHAN_BASE_DATA_PORT) = n) by (unfold VCHAN_BASE_DATA_PORT; lia). rewrite Esl.
    destruct ok.
    + apply Fw; [exact Hg|]. intros o Ho. apply (nr_given _ _ _ _ n (to_int (u32 b)) o).
      * rewrite Ep. reflexivity.
      * exact Ho.
      * exact Hn.
      * congruence.
      * cbn [d_notify set_notify set_clients set_used]. now rewrite Hnot.
      * unfold upd. cbn [d_clients set_clients]. now rewrite Nat.eqb_refl.
    + intros H. clear F Fw. injection H as <- <- <-.
      set (t := set_notify _ _). set (t1 := terminate_client t fd).
      assert (Enot : d_notify t1 = cleared fd (set_nth n (Some fd) (d_notify s))) by (unfold t1, t; rewrite terminate_notify; cbn [d_notify set_notify set_used]; now rewrite Hnot).
      assert (Er : d_notify (release_vchan_port t1 port (to_int (u32 b))) = d_notify t1 /\ forall g, d_clients (release_vchan_port t1 port (to_int (u32 b))) g = d_clients t1 g).
      { unfold release_vchan_port. rewrite Esl. destruct (nth n (d_used t1) 0 =? _); [|auto]. destruct (nth n (d_notify t1) None) as [f|] eqn:En; [|auto].
        exfalso. rewrite Enot in En. apply cleared_nth in En as [En Hf]. rewrite set_nth_same in En by lia. congruence. }
      destruct Er as [Er1 Er2]. split; [intros g Hgf; rewrite Er2; unfold t1; rewrite terminate_clients; apply Nat.eqb_neq in Hgf; rewrite Hgf; apply Hg|].
      split; [|split; [rewrite Er2; unfold t1; rewrite terminate_clients, Nat.eqb_refl; reflexivity|intros m; rewrite Er1; apply Hno]].
      apply (nr_failed _ _ _ _ n); [reflexivity|congruence|exact Hn|]. rewrite Er1. exact Enot.
  - destruct ((u32 (sdrop 4 b) >=? _) && _); [|apply F; [exact Hg|exact Hnot]]. apply Fw; [exact Hg|]. intros o Ho. apply nr_kept; [|exact Hnot].
    intros f d p [X|[]]. now apply Ho in X.
Qed.

(** the same for any message of a client. A client not in the state to give a command
    either keeps its state of no command, or leaves *)
Lemma client_notify du s fd m ok s' outs :
  length (d_used s) = 256%nat -> length (d_notify s) = 256%nat ->
  handle_message_from_client du s fd m ok = (s', outs) ->
  (forall g, g <> fd -> d_clients s' g = d_clients s g) /\ notify_result s fd s' outs /\
  (d_clients s fd = CLIENT_RUNNING -> forall n, nth n (d_notify s') None <> Some fd).
Proof.
  intros Hlu Hln. unfold handle_message_from_client.
  assert (F : (terminate_client s fd, []) = (s', outs) -> (forall g, g <> fd -> d_clients s' g = d_clients s g) /\ notify_result s fd s' outs /\
     (d_clients s fd = CLIENT_RUNNING -> forall n, nth n (d_notify s') None <> Some fd)).
  { intros H; injection H as <- <-. split; [intros g Hg; rewrite terminate_clients; apply Nat.eqb_neq in Hg; now rewrite Hg|].
    split; [now apply nr_left|]. intros _ n. rewrite terminate_notify, cleared_nth. intros [_ X]. congruence. }
  destruct (d_clients s fd) eqn:Ec.
  - intros H; injection H as <- <-. split; [auto|]. split; [apply nr_kept; auto|discriminate].
  - destruct m as [|type len bytes]; [exact F|]. destruct (negb _); [exact F|]. destruct (received len bytes); [|exact F]. destruct (_ <? _); [exact F|].
    intros H; injection H as <- <-. split; [intros g Hg; unfold upd; cbn [d_clients set_clients]; apply Nat.eqb_neq in Hg; now rewrite Hg|].
    split; [apply nr_kept; auto|discriminate].
  - destruct m as [|type len bytes]; [exact F|]. destruct (_ || _ || _); [|exact F].
    destruct (handle_cmdline_body du s fd type len (received len bytes) ok) as [[s1 outs1] stays] eqn:E.
    apply (body_notify _ _ _ _ _ _ _ _ _ _ Hlu Hln) in E as [E1 E2]. intros H. destruct stays; injection H as <- <-.
    + split; [intros g Hg; unfold upd; cbn [d_clients set_clients]; rewrite <- E1 by exact Hg; apply Nat.eqb_neq in Hg; now rewrite Hg|]. split; [exact E2|discriminate].
    + split; [exact E1|]. split; [apply E2|discriminate].
  - exact F.
Qed.

(** ** Restarts *)
Lemma close_all_spec l : forall s,
  (forall n f, nth n (d_notify (close_all l s)) None = Some f -> nth n (d_notify s) None = Some f /\ (In f l -> d_clients s f = CLIENT_INVALID)) /\
  length (d_notify (close_all l s)) = length (d_notify s).
Proof.
  induction l as [|fd l IH]; intros s; [split; [intros n f H; split; [exact H|intros []]|reflexivity]|].
  change (close_all (fd :: l) s) with (close_all l (match d_clients s fd with CLIENT_INVALID => s | _ => terminate_client s fd end)).
  set (s1 := match d_clients s fd with CLIENT_INVALID => s | _ => _ end). destruct (IH s1) as [A B].
  assert (C : d_clients s fd = CLIENT_INVALID /\ s1 = s \/ s1 = terminate_client s fd) by (unfold s1; destruct (d_clients s fd); auto).
  destruct C as [[C1 ->]|C].
  - split; [|exact B]. intros n f H. destruct (A n f H) as [X Y]. split; [exact X|]. intros [<-|Hi]; auto.
  - rewrite C in *. rewrite terminate_notify in *. split; [|now rewrite B, cleared_length].
    intros n f H. destruct (A n f H) as [X Y]. apply cleared_nth in X as [X1 X2]. split; [exact X1|]. intros [<-|Hi]; [congruence|].
    specialize (Y Hi). rewrite terminate_clients in Y. apply Nat.eqb_neq in X2. now rewrite X2 in Y.
Qed.

(** ** The invariant *)
Record notify_inv (h : history) (s : daemon) : Prop := {
  ni_len : length (d_notify s) = 256%nat;
  ni_run : forall n fd, nth n (d_notify s) None = Some fd ->
             d_clients s fd = CLIENT_RUNNING /\ (fd < 256)%nat /\ exists d, holds h fd d (513 + Z.of_nat n);
  ni_holds : forall fd d p, holds h fd d p -> exists n, (n < 256)%nat /\ p = 513 + Z.of_nat n /\ nth n (d_notify s) None = Some fd;
  ni_one : forall n m fd, nth n (d_notify s) None = Some fd -> nth m (d_notify s) None = Some fd -> n = m;
  ni_fds : forall fd, d_clients s fd <> CLIENT_INVALID -> (fd < 256)%nat
}.
Lemma holds_inv ev outs h fd d p : holds ((ev, outs) :: h) fd d p ->
  In (PortToClient fd d p) outs \/ holds h fd d p /\ ~ reports_end ev d p /\ ~ drops ev fd.
Proof. intros H. inversion H; subst; auto. Qed.
Lemma holds_in_use h fd d p : holds h fd d p -> in_use h d p.
Proof. induction 1; [apply iu_now; now exists fd|now apply iu_still]. Qed.
Lemma nth_some_lt {A} n (l : list (option A)) x : nth n l None = Some x -> (n < length l)%nat.
Proof. intros H. destruct (Nat.lt_ge_cases n (length l)); [assumption|]. rewrite nth_overflow in H by assumption. discriminate. Qed.

(** a step that changes neither the table nor the clients, and gives nothing *)
Lemma inv_same h s ev outs s' : notify_inv h s -> d_notify s' = d_notify s -> d_clients s' = d_clients s ->
  (forall f d p, ~ In (PortToClient f d p) outs) -> (forall d p, ~ reports_end ev d p) -> (forall f, ~ drops ev f) ->
  notify_inv ((ev, outs) :: h) s'.
Proof.
  intros [L R H O Fd] En Ec Ho He Hd. split.
  - now rewrite En.
  - intros n fd. rewrite En, Ec. intros X. destruct (R n fd X) as (A & B & d & C). split; [exact A|]. split; [exact B|]. exists d. apply ho_still; auto.
  - intros fd d p X. apply holds_inv in X as [X|(X & _ & _)]; [now apply Ho in X|]. rewrite En. eauto.
  - rewrite En. exact O.
  - rewrite Ec. exact Fd.
Qed.

Lemma release_cases s p d : 513 <= p < 769 ->
  (nth (slot_of p) (d_used s) 0 = d /\ exists fd, nth (slot_of p) (d_notify s) None = Some fd /\
     d_notify (release_vchan_port s p d) = cleared fd (d_notify s) /\
     (forall g, d_clients (release_vchan_port s p d) g = if Nat.eqb g fd then CLIENT_INVALID else d_clients s g)) \/
  ((nth (slot_of p) (d_used s) 0 = d -> nth (slot_of p) (d_notify s) None = None) /\
     d_notify (release_vchan_port s p d) = d_notify s /\ d_clients (release_vchan_port s p d) = d_clients s).
Proof.
  intros Hp. unfold release_vchan_port. change (Z.to_nat (p - VCHAN_BASE_DATA_PORT)) with (slot_of p).
  destruct (Z.eqb_spec (nth (slot_of p) (d_used s) 0) d) as [E|E].
  - destruct (nth (slot_of p) (d_notify s) None) as [fd|] eqn:En.
    + left. split; [exact E|]. exists fd. split; [reflexivity|]. split; [reflexivity|]. intros g. reflexivity.
    + right. auto.
  - right. split; [intros; contradiction|auto].
Qed.

Theorem notify_inv_holds du remote version h s : runs du remote version h s -> sane_domains h ->
  fresh_descriptors du remote version h -> notify_inv h s.
Proof.
  induction 1 as [|h s ev outs s' Hr IH Hs]; intros Hsane Hfr.
  - assert (N : forall n, nth n (repeat (@None nat) 256) None = None) by (intros n; apply nth_repeat). split.
    + apply repeat_length.
    + intros n fd H. exfalso. cbn [init d_notify] in H. change MAX_CLIENTS with 256%nat in H. rewrite N in H. discriminate.
    + intros fd d p H. inversion H.
    + intros n m fd H. exfalso. cbn [init d_notify] in H. change MAX_CLIENTS with 256%nat in H. rewrite N in H. discriminate.
    + cbn [init d_clients]. congruence.
  - assert (Hs0 : sane_domains h) by (intros e o Hi; apply (Hsane e o); now right).
    assert (Hf0 : fresh_descriptors du remote version h).
    { intros h1 h2 fd ok o s0 E. apply (Hfr h1 ((ev, outs) :: h2) fd ok o s0). now rewrite E. }
    specialize (IH Hs0 Hf0). pose proof (port_inv_holds _ _ _ _ _ Hr Hs0) as PI. pose proof (used_length _ _ _ _ _ Hr) as Hlu.
    destruct ev as [fd hello|fd m ok|type len body pid|pid k|v]; cbn [dstep] in Hs.
    + (* a new client *)
      unfold handle_new_client in Hs. destruct (Nat.ltb_spec fd MAX_CLIENTS) as [Hlt|Hlt]; [|discriminate]. cbn [option_map] in Hs. injection Hs as <- <-.
      specialize (Hfr h [] fd hello [] s eq_refl Hr). destruct IH as [L R H O Fd].
      assert (Nf : forall n, nth n (d_notify s) None <> Some fd) by (intros n X; destruct (R _ _ X) as (Y & _); congruence).
      split; cbn [d_notify d_clients set_clients]; auto.
      * intros n f X. destruct (R n f X) as (A & B & d & C). assert (f <> fd) by (intros ->; now apply Nf in X).
        unfold upd. rewrite (proj2 (Nat.eqb_neq f fd)) by assumption. split; [exact A|]. split; [exact B|]. exists d.
        apply ho_still; [exact C| |cbn [drops]; congruence]. intros (a0 & a1 & a2 & a3 & b0 & b1 & b2 & b3 & q & E & _). discriminate E.
      * intros f d p X. apply holds_inv in X as [[]|(X & _ & _)]. eauto.
      * intros f. unfold upd. destruct (Nat.eqb_spec f fd) as [->|]; [intros _; exact Hlt|apply Fd].
    + (* a message of a client *)
      assert (H1 : handle_message_from_client du s fd m ok = (s', outs)) by congruence. clear Hs.
      destruct IH as [L R H O Fd]. destruct (client_notify _ _ _ _ _ _ _ Hlu L H1) as (Hcl & Hn & Hleft).
      assert (Hno : forall d p, ~ reports_end (FromClient fd m ok) d p).
      { intros ? ? (a0 & a1 & a2 & a3 & b0 & b1 & b2 & b3 & q & E & _). discriminate E. }
      (* after the step only a port given in it names fd *)
      assert (Old : d_clients s fd = CLIENT_RUNNING \/ forall n, nth n (d_notify s) None <> Some fd).
      { destruct (d_clients s fd) eqn:Ec; auto; right; intros n X; destruct (R _ _ X) as (Y & _); congruence. }
      assert (Sub : forall n f, f <> fd -> nth n (d_notify s) None = Some f -> d_clients s' f = CLIENT_RUNNING /\ (f < 256)%nat /\ exists d, holds ((FromClient fd m ok, outs) :: h) f d (513 + Z.of_nat n)).
      { intros n f Hf X. destruct (R n f X) as (A & B & d & C). rewrite Hcl by exact Hf. split; [exact A|]. split; [exact B|]. exists d. apply ho_still; [exact C|apply Hno|cbn [drops]; congruence]. }
      assert (Fds : forall f, d_clients s' f <> CLIENT_INVALID -> (f < 256)%nat).
      { intros f X. destruct (Nat.eq_dec f fd) as [->|Hf]; [|apply Fd; now rewrite <- Hcl by exact Hf].
        apply Fd. intros Y. apply X. unfold handle_message_from_client in H1. rewrite Y in H1. injection H1 as <- _. exact Y. }
      destruct Hn as [n d o Ho Hon Hn Hu En Er|Ho En|Ho En|n Ho Hu Hn En].
      * (* port given *)
        assert (Nf : forall n, nth n (d_notify s) None <> Some fd).
        { destruct Old as [Ec|Old]; [|exact Old]. intros n' X. apply (Hleft Ec n). rewrite En. apply set_nth_same. lia. }
        assert (Free : nth n (d_notify s) None = None).
        { destruct (nth n (d_notify s) None) as [f|] eqn:E; [|reflexivity]. exfalso. destruct (R _ _ E) as (_ & _ & d' & Hh).
          apply holds_in_use in Hh. apply (pi_use _ _ _ PI) in Hh as (_ & Hd & Hx). unfold slot_of in Hx.
          replace (Z.to_nat (513 + Z.of_nat n - 513)) with n in Hx by lia. congruence. }
        split.
        -- now rewrite En, set_nth_length.
        -- intros k f. rewrite En. destruct (Nat.eq_dec n k) as [<-|Hk].
           ++ rewrite set_nth_same by lia. intros X; injection X as <-. split; [exact Er|]. split; [apply Fds; rewrite Er; discriminate|]. exists d. apply ho_now. rewrite Ho. now left.
           ++ rewrite set_nth_other by exact Hk. intros X. apply Sub; [|exact X]. intros ->. now apply Nf in X.
        -- intros f d' p X. apply holds_inv in X as [X|(X & _ & Hd)].
           ++ rewrite Ho in X. destruct X as [X|[X|[]]]; [|now apply Hon in X]. injection X as <- <- <-. exists n. split; [exact Hn|]. split; [reflexivity|]. rewrite En. apply set_nth_same. lia.
           ++ destruct (H _ _ _ X) as (k & Hk & -> & Hx). exists k. split; [exact Hk|]. split; [reflexivity|]. rewrite En.
              rewrite set_nth_other; [exact Hx|]. intros ->. congruence.
        -- intros k k' f. rewrite En. destruct (Nat.eq_dec n k) as [<-|Hk].
           ++ rewrite set_nth_same by lia. intros X; injection X as <-. destruct (Nat.eq_dec n k') as [<-|Hk']; [reflexivity|]. rewrite set_nth_other by exact Hk'. intros X. now apply Nf in X.
           ++ rewrite set_nth_other by exact Hk. intros X. destruct (Nat.eq_dec n k') as [<-|Hk'].
              ** rewrite set_nth_same by lia. intros Y; injection Y as <-. now apply Nf in X.
              ** rewrite set_nth_other by exact Hk'. now apply O.
        -- exact Fds.
      * (* nothing changes *)
        assert (Nf : forall n, nth n (d_notify s) None <> Some fd).
        { destruct Old as [Ec|Old]; [|exact Old]. intros n. rewrite <- En. apply Hleft, Ec. }
        split.
        -- now rewrite En.
        -- intros k f. rewrite En. intros X. apply Sub; [|exact X]. intros ->. now apply Nf in X.
        -- intros f d' p X. apply holds_inv in X as [X|(X & _ & Hd)]; [now apply Ho in X|]. rewrite En. eauto.
        -- rewrite En. exact O.
        -- exact Fds.
      * split.
        -- now rewrite En, cleared_length.
        -- intros k f. rewrite En. intros X. apply cleared_nth in X as [X Hf]. now apply Sub.
        -- intros f d' p X. apply holds_inv in X as [X|(X & _ & Hd)]; [rewrite Ho in X; destruct X|]. cbn [drops] in Hd. destruct (H _ _ _ X) as (k & Hk & -> & Hx).
           exists k. split; [exact Hk|]. split; [reflexivity|]. rewrite En. apply cleared_nth. split; [exact Hx|congruence].
        -- intros k k' f. rewrite En. intros X Y. apply cleared_nth in X as [X _]. apply cleared_nth in Y as [Y _]. eauto.
        -- exact Fds.
      * split.
        -- now rewrite En, cleared_length, set_nth_length.
        -- intros k f. rewrite En. intros X. apply cleared_nth in X as [X Hf]. destruct (Nat.eq_dec n k) as [<-|Hk]; [rewrite set_nth_same in X by lia; congruence|].
           rewrite set_nth_other in X by exact Hk. now apply Sub.
        -- intros f d' p X. apply holds_inv in X as [X|(X & _ & Hd)]; [rewrite Ho in X; destruct X|]. cbn [drops] in Hd. destruct (H _ _ _ X) as (k & Hk & -> & Hx).
           exists k. split; [exact Hk|]. split; [reflexivity|]. rewrite En. apply cleared_nth. split; [|congruence]. rewrite set_nth_other; [exact Hx|]. intros ->.
           apply holds_in_use in X. apply (pi_use _ _ _ PI) in X as (_ & Hdd & Hxx). unfold slot_of in Hxx. replace (Z.to_nat (513 + Z.of_nat k - 513)) with k in Hxx by lia. congruence.
        -- intros k k' f. rewrite En. intros X Y. apply cleared_nth in X as [X Hf]. apply cleared_nth in Y as [Y _].
           destruct (Nat.eq_dec n k) as [<-|Hk]; [rewrite set_nth_same in X by lia; congruence|]. destruct (Nat.eq_dec n k') as [<-|Hk']; [rewrite set_nth_same in Y by lia; congruence|].
           rewrite set_nth_other in X by exact Hk. rewrite set_nth_other in Y by exact Hk'. eauto.
        -- exact Fds.
    + (* from the agent *)
      destruct (handle_message_from_agent (d_version s) type len body) as [|raw|rs tg sv x|dom port] eqn:Em; [discriminate|..].
      * assert (E : s' = s /\ outs = [Refused (cstr raw)]) by (split; congruence). destruct E as [-> ->].
        destruct (Z.eq_dec type 529) as [Et|Et].
        { exfalso. destruct (agent_529 (d_version s) type len body Et) as (X & _); [rewrite Em; discriminate|]. congruence. }
        eapply inv_same; eauto; [intros f d p [X|[]]; discriminate|].
        intros d p (a0 & a1 & a2 & a3 & b0 & b1 & b2 & b3 & q & E & _). congruence.
      * assert (H1 : handle_execute_service s x pid = (s', outs)) by congruence. unfold handle_execute_service in H1.
        destruct (Z.eq_dec type 529) as [Et|Et].
        { exfalso. destruct (agent_529 (d_version s) type len body Et) as (X & _); [rewrite Em; discriminate|]. congruence. }
        assert (E : d_notify s' = d_notify s /\ d_clients s' = d_clients s /\ forall f d p, ~ In (PortToClient f d p) outs).
        { destruct (free_slot (d_pending s)); apply pair_eq in H1 as [<- <-]; (split; [reflexivity|]; split; [reflexivity|]); intros f d p; [intros []|intros [X|[]]; discriminate]. }
        destruct E as (E1 & E2 & E3). eapply inv_same; eauto.
        intros d p (a0 & a1 & a2 & a3 & b0 & b1 & b2 & b3 & q & E & _). congruence.
      * assert (E : s' = release_vchan_port s port (to_int dom) /\ outs = []) by (split; congruence). destruct E as [-> ->].
        assert (Et : type = 529).
        { destruct (Z.eq_dec type 529) as [Et|Et]; [exact Et|]. destruct (agent_asks (d_version s) type len body pid) as [y Hy]; [rewrite Em; discriminate|exact Et|].
          pose proof (agent_call (d_version s) _ _ _ _ _ Hy) as K. rewrite Em in K. destruct K. }
        destruct (agent_529 (d_version s) type len body Et) as (X & Hp & El & Eb); [rewrite Em; discriminate|].
        assert (Ex : dom = u32 body /\ port = u32 (sdrop 4 body)) by (split; congruence). destruct Ex as [-> ->]. clear X.
        assert (Hre : reports_end (FromAgent type len body pid) (to_int (u32 body)) (u32 (sdrop 4 body))).
        { apply reports_end_iff. exists body, pid. subst type len. auto. }
        set (p := u32 (sdrop 4 body)) in *. set (d := to_int (u32 body)) in *. clearbody p d.
        destruct IH as [L R H O Fd].
        assert (Hsl : (slot_of p < 256)%nat) by (unfold slot_of; lia).
        assert (Keep : forall n f, nth n (d_notify s) None = Some f -> n <> slot_of p \/ nth (slot_of p) (d_used s) 0 <> d ->
            exists d', holds ((FromAgent type len body pid, []) :: h) f d' (513 + Z.of_nat n)).
        { intros n f X Hne. destruct (R n f X) as (_ & _ & d' & C). exists d'. apply ho_still; [exact C| |intros []]. intros Hre'.
          destruct (reports_end_fun _ _ _ _ _ Hre Hre') as [Ed Ep]. apply holds_in_use in C. apply (pi_use _ _ _ PI) in C as (_ & _ & Hx). rewrite <- Ep in Hx.
          destruct Hne as [Hne|Hne]; [|congruence]. apply Hne. unfold slot_of. lia. }
        destruct (release_cases s p d Hp) as [(Eu & fd & En & En' & Ec')|(Hnone & En' & Ec')].
        -- split.
           ++ rewrite En', cleared_length. exact L.
           ++ intros n f. rewrite En'. intros X. apply cleared_nth in X as [X Hf]. rewrite Ec'. apply Nat.eqb_neq in Hf as Hf'. rewrite Hf'.
              destruct (R n f X) as (A & B & _). split; [exact A|]. split; [exact B|]. apply Keep; [exact X|]. left. intros ->. congruence.
           ++ intros f d' p' X. apply holds_inv in X as [[]|(X & Hnr & _)]. destruct (H _ _ _ X) as (k & Hk & -> & Hx). exists k. split; [exact Hk|]. split; [reflexivity|].
              rewrite En'. apply cleared_nth. split; [exact Hx|]. intros ->. assert (k = slot_of p) by eauto. subst k.
              apply Hnr. apply holds_in_use in X. apply (pi_use _ _ _ PI) in X as (_ & _ & Hxx).
              replace (513 + Z.of_nat (slot_of p)) with p in * by (unfold slot_of; lia). congruence.
           ++ intros n m f. rewrite En'. intros X Y. apply cleared_nth in X as [X _]. apply cleared_nth in Y as [Y _]. eauto.
           ++ intros f. rewrite Ec'. destruct (Nat.eqb f fd); [congruence|apply Fd].
        -- split.
           ++ now rewrite En'.
           ++ intros n f. rewrite En', Ec'. intros X. destruct (R n f X) as (A & B & _). split; [exact A|]. split; [exact B|]. apply Keep; [exact X|].
              destruct (Nat.eq_dec n (slot_of p)) as [->|]; [|auto]. right. intros Eu. rewrite (Hnone Eu) in X. discriminate.
           ++ intros f d' p' X. apply holds_inv in X as [[]|(X & _ & _)]. rewrite En'. eauto.
           ++ rewrite En'. exact O.
           ++ rewrite Ec'. exact Fd.
    + (* a child ended *)
      assert (H1 : (if pid >? 0 then reap_child s pid k else (s, [])) = (s', outs)) by congruence. clear Hs.
      assert (E : d_notify s' = d_notify s /\ d_clients s' = d_clients s /\ forall f d p, ~ In (PortToClient f d p) outs).
      { destruct (pid >? 0); [|apply pair_eq in H1 as [<- <-]; split; [reflexivity|]; split; [reflexivity|intros f d p []]].
        unfold reap_child in H1. destruct k as [code|]; [|apply pair_eq in H1 as [<- <-]; split; [reflexivity|]; split; [reflexivity|intros f d p []]].
        destruct (find_pid _ _ _); [|apply pair_eq in H1 as [<- <-]; split; [reflexivity|]; split; [reflexivity|intros f d p []]].
        destruct (if code =? 0 then _ else _) as [r o] eqn:E. cbv zeta in H1. apply pair_eq in H1 as [<- <-]. split; [reflexivity|]. split; [reflexivity|].
        intros f d p X. destruct (code =? 0); [apply pair_eq in E as [_ <-]; destruct X|]. destruct (s_resp _); apply pair_eq in E as [_ <-]; [destruct X as [X|[]]; discriminate|destruct X..]. }
      destruct E as (E1 & E2 & E3). eapply inv_same; eauto.
      intros d p (a0 & a1 & a2 & a3 & b0 & b1 & b2 & b3 & q & E & _). discriminate E.
    + (* restart *)
      assert (E : s' = handle_agent_restart s v /\ outs = []) by (split; congruence). destruct E as [-> ->]. clear Hs.
      destruct IH as [L R H O Fd]. unfold handle_agent_restart. cbv zeta.
      destruct (close_all_spec (seq 0 MAX_CLIENTS) s) as [A B]. set (s1 := close_all (seq 0 MAX_CLIENTS) s) in *.
      assert (Hs1 : forall f, d_clients s1 f <> CLIENT_INVALID -> (f < 256)%nat).
      { assert (G : forall l t, (forall f, d_clients t f <> CLIENT_INVALID -> (f < 256)%nat) -> forall f, d_clients (close_all l t) f <> CLIENT_INVALID -> (f < 256)%nat).
        { induction l as [|g l IHl]; intros t Ht; [exact Ht|].
          change (close_all (g :: l) t) with (close_all l (match d_clients t g with CLIENT_INVALID => t | _ => terminate_client t g end)).
          apply IHl. intros f. destruct (d_clients t g); try apply Ht; rewrite terminate_clients; destruct (Nat.eqb f g); try congruence; apply Ht. }
        apply G. exact Fd. }
      clearbody s1.
      assert (None' : forall n, nth n (d_notify s1) None = None).
      { intros n. destruct (nth n (d_notify s1) None) as [f|] eqn:E; [|reflexivity]. exfalso. destruct (A _ _ E) as [X Y].
        destruct (R _ _ X) as (Z1 & Z2 & _). rewrite Y in Z1; [discriminate|]. apply in_seq. change MAX_CLIENTS with 256%nat. lia. }
      split; cbn [d_notify d_clients].
      * rewrite B. exact L.
      * intros n f X. rewrite None' in X. discriminate.
      * intros f d p X. apply holds_inv in X as [[]|(_ & _ & X)]. exfalso. apply X. exact I.
      * intros n m f X. rewrite None' in X. discriminate.
      * exact Hs1.
Qed.

(** ** The theorems *)
(** When the agent reports the end of a connection, the client that set it up is
    disconnected, at once, and nothing else happens to any client *)
Theorem C78_end_told du remote version h s fd d p ev s' outs :
  runs du remote version h s -> sane_domains h -> fresh_descriptors du remote version h ->
  holds h fd d p -> reports_end ev d p -> dstep du s ev = Some (s', outs) ->
  d_clients s' fd = CLIENT_INVALID /\ forall g, g <> fd -> d_clients s' g = d_clients s g.
Proof.
  intros Hr Hs Hf Hh He Hst. pose proof (notify_inv_holds _ _ _ _ _ Hr Hs Hf) as [L R H O Fd]. pose proof (port_inv_holds _ _ _ _ _ Hr Hs) as PI.
  destruct (H _ _ _ Hh) as (n & Hn & -> & En). apply holds_in_use in Hh. apply (pi_use _ _ _ PI) in Hh as (Hp & _ & Hu).
  apply reports_end_iff in He as (body & pid & -> & Hb & Ed & Ep). cbn [dstep] in Hst.
  destruct (handle_message_from_agent (d_version s) 529 8 body) as [|raw|rs tg sv x|dom port] eqn:Em; [discriminate|..].
  1,2: exfalso; destruct (agent_529 (d_version s) 529 8 body eq_refl) as (X & _); [rewrite Em; discriminate|]; congruence.
  destruct (agent_529 (d_version s) 529 8 body eq_refl) as (X & _); [rewrite Em; discriminate|]. assert (Ex : dom = u32 body /\ port = u32 (sdrop 4 body)) by (split; congruence). destruct Ex as [-> ->]. clear X.
  rewrite <- Ed, <- Ep in Hst. assert (E : s' = release_vchan_port s (513 + Z.of_nat n) d) by congruence. subst s'.
  assert (Esl : slot_of (513 + Z.of_nat n) = n) by (unfold slot_of; lia). rewrite Esl in Hu.
  destruct (release_cases s (513 + Z.of_nat n) d Hp) as [(Eu & fd' & En' & _ & Ec)|(Hnone & _)].
  - rewrite Esl in En'. assert (fd' = fd) by congruence. subst fd'. split; [now rewrite Ec, Nat.eqb_refl|]. intros g Hg. rewrite Ec. apply Nat.eqb_neq in Hg. now rewrite Hg.
  - exfalso. rewrite Esl in Hnone. rewrite (Hnone Hu) in En. discriminate.
Qed.
(** and no client is disconnected by such a report but the one that set that connection
    up *)
Theorem C78_only_then du remote version h s g d p ev s' outs :
  runs du remote version h s -> sane_domains h -> fresh_descriptors du remote version h ->
  reports_end ev d p -> dstep du s ev = Some (s', outs) -> d_clients s' g <> d_clients s g -> holds h g d p.
Proof.
  intros Hr Hs Hf He Hst Hne. pose proof (notify_inv_holds _ _ _ _ _ Hr Hs Hf) as [L R H O Fd]. pose proof (port_inv_holds _ _ _ _ _ Hr Hs) as PI.
  apply reports_end_iff in He as (body & pid & -> & Hb & Ed & Ep). cbn [dstep] in Hst.
  destruct (handle_message_from_agent (d_version s) 529 8 body) as [|raw|rs tg sv x|dom port] eqn:Em; [discriminate|..].
  1,2: exfalso; destruct (agent_529 (d_version s) 529 8 body eq_refl) as (X & _); [rewrite Em; discriminate|]; congruence.
  destruct (agent_529 (d_version s) 529 8 body eq_refl) as (X & Hp & _); [rewrite Em; discriminate|]. assert (Ex : dom = u32 body /\ port = u32 (sdrop 4 body)) by (split; congruence). destruct Ex as [-> ->]. clear X.
  rewrite <- Ed, <- Ep in Hst. rewrite <- Ep in Hp. assert (E : s' = release_vchan_port s p d) by congruence. subst s'.
  destruct (release_cases s p d Hp) as [(Eu & fd' & En' & _ & Ec)|(_ & _ & Ec)]; [|congruence].
  rewrite Ec in Hne. destruct (Nat.eqb_spec g fd') as [->|]; [|congruence].
  destruct (R _ _ En') as (_ & _ & d' & Hh). replace (513 + Z.of_nat (slot_of p)) with p in Hh by (unfold slot_of; lia).
  pose proof (holds_in_use _ _ _ _ Hh) as Hu. apply (pi_use _ _ _ PI) in Hu as (_ & _ & Hx). congruence.
Qed.
(** the hypotheses are met: a client says hello, gives a command, is given port 513 *)
Definition ex_hello : string := String (ascii_of_nat 3) (String NUL (String NUL (String NUL ""))).
Definition ex_cmd : string := String NUL (String NUL (String NUL (String NUL (String NUL (String NUL (String NUL (String NUL "user:ls"))))))) +++ str1 NUL.
Example C78_example : exists h s, runs "user" 1 3 h s /\ sane_domains h /\ fresh_descriptors "user" 1 3 h /\ holds h 7 0 513.
Proof.
  assert (R1 : runs "user" 1 3 [(NewClient 7 true, [])] (set_clients (init 1 3) (upd (d_clients (init 1 3)) 7 CLIENT_HELLO))).
  { eapply runs_step; [apply runs_start|reflexivity]. }
  eexists _, _. split; [|split; [|split]].
  - eapply runs_step with (ev := FromClient 7 (ClientMessage 512 16 ex_cmd) true) (outs := [PortToClient 7 0 513; ToAgent 512 16 0 513 ("user:ls" +++ str1 NUL)]).
    + eapply runs_step with (ev := FromClient 7 (ClientMessage 768 4 ex_hello) true); [exact R1|reflexivity].
    + reflexivity.
  - intros ev outs H. repeat (destruct H as [H|H]; [injection H as <- <-; intros (fd & ty & len & a0 & a1 & a2 & a3 & rest & ok & E & Hs)|]); try destruct H; try discriminate E.
    + injection E as _ _ _ <- <- <- <- _ _. destruct Hs as [_ [Hs|Hs]]; vm_compute in Hs; discriminate.
    + injection E as _ _ _ <- <- <- <- _ _. destruct Hs as [_ [Hs|Hs]]; vm_compute in Hs; discriminate.
  - intros h1 h2 fd ok outs s E Hr. destruct h2 as [|x [|y [|z h2]]]; try (apply (f_equal (@length _)) in E; rewrite app_length in E; cbn [length] in E; lia).
    + discriminate E.
    + discriminate E.
    + assert (h1 = []) by (destruct h1; [reflexivity|discriminate E]). subst h1. inversion Hr. reflexivity.
  - apply ho_now. now left.
Qed.
