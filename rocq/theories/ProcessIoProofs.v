(** Invariants of the process_io loop *)
From Coq Require Import String Ascii List Bool Arith ZArith Lia.
From Verif Require Import Io IoProofs Stream SpecStream StreamProofs RemoteProofs ProcessIo.
Import ListNotations.
Open Scope list_scope.

(** ** Payloads and ends of lists of messages *)
Lemma payload_app ty a b : payload ty (a ++ b) = payload ty a ++ payload ty b.
Proof. unfold payload. rewrite filter_app, map_app, concat_app. reflexivity. Qed.
Lemma eofs_app ty a b : eofs ty (a ++ b) = eofs ty a + eofs ty b.
Proof. unfold eofs. rewrite filter_app, app_length. reflexivity. Qed.
Lemma payload_other ty ty2 ms : ty2 <> ty -> Forall (fun m => fst m = ty2) ms -> payload ty ms = [].
Proof.
  intros Hne. induction 1 as [|[t p] ms Hm Hms IH]; [reflexivity|]. unfold payload in *. cbn [filter fst] in *. subst t.
  apply Z.eqb_neq in Hne. rewrite Hne. exact IH.
Qed.
Lemma eofs_other ty ty2 ms : ty2 <> ty -> Forall (fun m => fst m = ty2) ms -> eofs ty ms = 0.
Proof.
  intros Hne. induction 1 as [|[t p] ms Hm Hms IH]; [reflexivity|]. unfold eofs in *. cbn [filter fst snd] in *. subst t.
  apply Z.eqb_neq in Hne. rewrite Hne. cbn [andb]. exact IH.
Qed.
Lemma payload_msgs ty chunks : payload ty (msgs ty chunks) = concat chunks.
Proof.
  unfold payload, msgs. induction chunks as [|p chunks IH]; [reflexivity|]. cbn [map filter fst]. rewrite Z.eqb_refl. cbn [map concat snd]. now rewrite IH.
Qed.
Lemma eofs_msgs ty max chunks : Forall (good_chunk max) chunks -> eofs ty (msgs ty chunks) = 0.
Proof.
  unfold eofs, msgs. induction 1 as [|p chunks [Hp _] H IH]; [reflexivity|]. cbn [map filter fst snd]. rewrite Z.eqb_refl.
  destruct p; [congruence|]. cbn [length Nat.eqb andb]. exact IH.
Qed.
Lemma stream_of_msgs ty max chunks : is_data ty = true -> Forall (good_chunk max) chunks ->
  stream_of (msgs ty chunks) = concat chunks /\ ~ ended (msgs ty chunks).
Proof.
  intros Hd. induction 1 as [|p chunks [Hp _] H IH]. { split; [reflexivity|intros (t & _ & [])]. }
  destruct IH as [IH1 IH2]. cbn [msgs map stream_of concat]. rewrite Hd. destruct p as [|a p]; [congruence|]. split.
  - fold (msgs ty chunks). now rewrite IH1.
  - intros (t & X & [Y|Y]); [congruence|]. apply IH2. exists t. auto.
Qed.
Lemma eofs_ended ty ms : is_data ty = true -> eofs ty ms <> 0 -> ended ms.
Proof.
  intros Hd. unfold eofs. induction ms as [|[t p] ms IH]; [cbn; congruence|]. cbn [filter fst snd].
  destruct (Z.eqb_spec t ty) as [->|]; cbn [andb].
  - destruct p as [|a p]; cbn [length Nat.eqb].
    + intros _. exists ty. split; [exact Hd|now left].
    + intros H. destruct (IH H) as (t & X & Y). exists t. split; [exact X|now right].
  - intros H. destruct (IH H) as (t' & X & Y). exists t'. split; [exact X|now right].
Qed.
Lemma ended_eofs ty ms : Forall (fun m => is_data (fst m) = true -> fst m = ty) ms -> ended ms -> eofs ty ms <> 0.
Proof.
  unfold eofs. intros H (t & Ht & Hin). induction H as [|m ms Hm Hms IH]; [destruct Hin|]. cbn [filter].
  destruct Hin as [->|Hin].
  - cbn [fst snd] in *. rewrite (Hm Ht), Z.eqb_refl. cbn [length Nat.eqb andb]. discriminate.
  - specialize (IH Hin). match goal with |- context [if ?b then _ else _] => destruct b end; [cbn [length]; lia|exact IH].
Qed.

(** ** A call of handle_input_v2 in terms of messages *)
Lemma Tx_more ty max rc s s' : Tx ty max rc s s' ->
  exists more lost tail,
    Forall (fun m => fst m = ty /\ length (snd m) <= max) more /\
    tx_out s' = tx_out s ++ wire more ++ tail /\
    tx_prefix s ++ tx_src s = payload ty more ++ lost ++ tx_prefix s' ++ tx_src s' /\
    (tx_dead s = true -> more = [] /\ tail = [] /\ tx_dead s' = true) /\ (tx_dead s' = false -> tail = [] /\ lost = []) /\
    eofs ty more = (match rc with REMOTE_EOF => if tx_dead s' then 0 else 1 | _ => 0 end) /\
    (rc = REMOTE_EOF -> tx_prefix s' = []) /\
    (is_data ty = true -> stream_of more = payload ty more) /\ rc <> REMOTE_EXITED.
Proof.
  intros (chunks & lost & tail & A & B & C & D & E).
  assert (Fm : Forall (fun m : message => fst m = ty /\ length (snd m) <= max) (msgs ty chunks)).
  { unfold msgs. rewrite Forall_map. revert A. apply Forall_impl. intros p [_ Hp]. cbn. auto. }
  assert (Go : forall lost tail, tx_out s' = tx_out s ++ wire (msgs ty chunks) ++ tail -> tx_prefix s ++ tx_src s = concat chunks ++ lost ++ tx_prefix s' ++ tx_src s' ->
     (tx_dead s = true -> chunks = [] /\ tail = [] /\ tx_dead s' = true) -> (tx_dead s' = false -> tail = [] /\ lost = []) ->
     match rc with REMOTE_EOF => if tx_dead s' then 0 else 1 | _ => 0 end = 0 -> (rc = REMOTE_EOF -> tx_prefix s' = []) -> rc <> REMOTE_EXITED ->
    exists more lost tail,
    Forall (fun m => fst m = ty /\ length (snd m) <= max) more /\
    tx_out s' = tx_out s ++ wire more ++ tail /\
    tx_prefix s ++ tx_src s = payload ty more ++ lost ++ tx_prefix s' ++ tx_src s' /\
    (tx_dead s = true -> more = [] /\ tail = [] /\ tx_dead s' = true) /\ (tx_dead s' = false -> tail = [] /\ lost = []) /\
    eofs ty more = (match rc with REMOTE_EOF => if tx_dead s' then 0 else 1 | _ => 0 end) /\
    (rc = REMOTE_EOF -> tx_prefix s' = []) /\
    (is_data ty = true -> stream_of more = payload ty more) /\ rc <> REMOTE_EXITED).
  { intros l t B' C' D' E' Z F G. exists (msgs ty chunks), l, t. split; [exact Fm|]. split; [exact B'|]. rewrite payload_msgs. split; [exact C'|].
    split; [intros X; destruct (D' X) as (-> & ? & ?); auto|]. split; [exact E'|]. rewrite (eofs_msgs ty max) by exact A. split; [symmetry; exact Z|]. split; [exact F|].
    split; [|exact G]. intros Hd. apply (stream_of_msgs ty max chunks Hd A). }
  destruct rc; [contradiction| | |].
  - destruct E as (E1 & E2 & E3). apply (Go lost tail B C D); [intros X; destruct (E2 X); auto|reflexivity|discriminate|discriminate].
  - destruct E as (-> & E2 & E3). destruct (tx_dead s') eqn:Ed.
    + apply (Go [] tail B C D); [discriminate|reflexivity|intros _; exact E2|discriminate].
    + exists (msgs ty chunks ++ [(ty, [])]), [], []. split; [apply Forall_app; split; [exact Fm|constructor; [cbn; lia|constructor]]|].
      split; [rewrite B, E3, wire_app; unfold wire at 3; cbn [map concat]; rewrite !app_nil_r; reflexivity|].
      assert (P : payload ty (msgs ty chunks ++ [(ty, [])]) = concat chunks).
      { rewrite payload_app, payload_msgs. unfold payload. cbn [filter fst]. rewrite Z.eqb_refl. cbn. apply app_nil_r. }
      split; [rewrite P; exact C|]. split; [intros X; destruct (D X) as (_ & _ & Y); discriminate|]. split; [auto|].
      split; [rewrite eofs_app, (eofs_msgs ty max) by exact A; unfold eofs; cbn [filter fst snd]; rewrite Z.eqb_refl; reflexivity|].
      split; [auto|]. split; [|discriminate]. intros Hd. rewrite P. destruct (stream_of_msgs ty max chunks Hd A) as [S1 S2].
      rewrite stream_of_open by exact S2. rewrite S1. cbn [stream_of]. rewrite Hd. apply app_nil_r.
  - destruct E as (-> & -> & E3). apply (Go [] [] B C D); [auto|reflexivity|discriminate|discriminate].
Qed.

(** ** The invariant *)
Record ktx := { k_single : bool; k_haserr : bool; k_base : Z; k_buf : bytes; k_prefix : bytes; k_src : bytes; k_sock : bytes; k_err : bytes; k_input : bytes }.

(** What the peer is to get from us: what is read from stdout; after a switch to the
    single socket, a part of that and then what is read from the socket *)
Definition legit (k : ktx) (switched : bool) (total : bytes) : Prop :=
  if switched then exists a, is_prefix a (k_prefix k ++ k_src k) /\ total = a ++ k_sock k
  else total = k_prefix k ++ k_src k.
Definition b2n (b : bool) : nat := if b then 1 else 0.
Definition no_exit (cons : list message) : Prop := forall p, ~ In (MSG_DATA_EXIT_CODE, p) cons.

Record OutInv (k : ktx) (c : pcfg) (cons ms : list message) (s : pio) (tail lost elost total : bytes) : Prop := {
  o_out : p_vout s = wire ms ++ tail;
  o_alive : p_dead s = false -> tail = [] /\ lost = [] /\ elost = [];
  o_types : Forall (fun m => (fst m = out_type c \/ fst m = MSG_DATA_STDERR /\ service c = true) /\ length (snd m) <= c_max (pc_rx c)) ms;
  o_data : payload (out_type c) ms ++ lost ++ p_prefix s ++ p_src s = total;
  o_legit : legit k (xorb (k_single k) (p_single s)) total;
  o_err : payload MSG_DATA_STDERR ms ++ elost ++ p_errsrc s = k_err k;
  o_eofs : p_single s = k_single k -> eofs (out_type c) ms + b2n (p_stdout s) <= 1;
  o_eof1 : service c = true -> p_dead s = false -> p_single s = k_single k -> p_stdout s = false -> eofs (out_type c) ms = 1;
  o_eeofs : eofs MSG_DATA_STDERR ms + b2n (p_stderr s) <= 1;
  o_eeof1 : service c = true -> p_dead s = false -> p_stderr s = false -> eofs MSG_DATA_STDERR ms = 1;
  o_stream : p_single s = k_single k -> k_prefix k = [] \/ no_exit cons ->
             stream_of ms = payload (out_type c) ms /\ (p_stdout s = false -> p_prefix s = [] \/ p_dead s = true);
  o_sock : p_sock s = k_sock k;
  o_prefix : k_prefix k = [] -> p_prefix s = [];
  o_noerr : service c = false -> p_stderr s = false
}.
Definition Out (k : ktx) (c : pcfg) (cons ms : list message) (s : pio) : Prop :=
  exists tail lost elost total, OutInv k c cons ms s tail lost elost total.

(** the parts of the state [OutInv] looks at, besides stdout *)
Definition same_out (s s' : pio) : Prop :=
  p_vout s' = p_vout s /\ p_dead s' = p_dead s /\ p_prefix s' = p_prefix s /\ p_src s' = p_src s /\ p_single s' = p_single s /\
  p_errsrc s' = p_errsrc s /\ p_stderr s' = p_stderr s /\ p_sock s' = p_sock s.
Lemma Out_same k c cons ms s s' : same_out s s' -> p_stdout s' = p_stdout s -> Out k c cons ms s -> Out k c cons ms s'.
Proof.
  intros (E1 & E2 & E3 & E4 & E5 & E6 & E7 & E8) Eo (tail & lost & elost & total & [H1 H2 H3 H4 H5 H6 H7 H8 H9 H10 H11 H12 H13 H14]).
  exists tail, lost, elost, total. constructor; rewrite ?E1, ?E2, ?E3, ?E4, ?E5, ?E6, ?E7, ?E8, ?Eo; assumption.
Qed.
(** more was received *)
Lemma Out_cons k c cons more ms s : Out k c cons ms s -> Out k c (cons ++ more) ms s.
Proof.
  intros (tail & lost & elost & total & [H1 H2 H3 H4 H5 H6 H7 H8 H9 H10 H11 H12 H13 H14]). exists tail, lost, elost, total. constructor; try assumption.
  intros X [Y|Y]; [apply H11; auto|]. apply H11; [exact X|]. right. intros p Hp. apply (Y p). apply in_or_app. now left.
Qed.
(** stdout closes without a message: the vchan is dead, or on the client *)
Lemma Out_close k c cons ms s s' : same_out s s' -> p_stdout s' = false -> Out k c cons ms s ->
  p_stdout s = false \/ p_dead s = true \/ service c = false /\ p_prefix s = [] -> Out k c cons ms s'.
Proof.
  intros (E1 & E2 & E3 & E4 & E5 & E6 & E7 & E8) Eo (tail & lost & elost & total & [H1 H2 H3 H4 H5 H6 H7 H8 H9 H10 H11 H12 H13 H14]) Hc.
  exists tail, lost, elost, total. constructor; rewrite ?E1, ?E2, ?E3, ?E4, ?E5, ?E6, ?E7, ?E8, ?Eo; try assumption.
  - intros X. specialize (H7 X). cbn [b2n]. lia.
  - intros X Y Z _. destruct Hc as [Hc|[Hc|[Hc _]]]; [now apply H8|congruence|congruence].
  - intros X Y. destruct (H11 X Y) as [Z1 Z2]. split; [exact Z1|]. intros _. destruct Hc as [Hc|[Hc|[_ Hc]]]; auto.
Qed.

Lemma out_type_data c : is_data (out_type c) = true.
Proof. unfold out_type. destruct (service c); reflexivity. Qed.
Lemma out_type_not_stderr c : out_type c <> MSG_DATA_STDERR.
Proof. unfold out_type. destruct (service c); discriminate. Qed.
Lemma o_types_data k c cons ms s tail lost elost total : OutInv k c cons ms s tail lost elost total ->
  Forall (fun m => is_data (fst m) = true -> fst m = out_type c) ms.
Proof.
  intros H. apply o_types in H. revert H. apply Forall_impl. intros [t p] [[E|[E _]] _]; cbn [fst] in *; [auto|subst t; discriminate].
Qed.
Lemma eof_frame ty : enc32 ty ++ enc32 0 = frame (ty, []).
Proof. unfold frame. cbn [fst snd]. rewrite app_nil_r. reflexivity. Qed.

(** appending messages of one of our types *)
Lemma payload_only ty more (max : nat) : Forall (fun m => fst m = ty /\ length (snd m) <= max) more -> forall ty2, ty <> ty2 ->
  payload ty2 more = [] /\ eofs ty2 more = 0.
Proof.
  intros H ty2 Hne. assert (H' : Forall (fun m : message => fst m = ty) more) by (revert H; apply Forall_impl; tauto).
  split; [apply (payload_other ty2 ty); auto|apply (eofs_other ty2 ty); auto].
Qed.

(** The EOF message for stdout is sent and stdout closed *)
Lemma Out_eof k c cons ms s ok s' :
  same_out (p_send s ok (enc32 (out_type c) ++ enc32 0)) s' -> p_stdout s' = false -> p_stdout s = true ->
  p_prefix s = [] \/ (k_prefix k <> [] /\ ~ no_exit cons) -> Out k c cons ms s -> exists ms', Out k c cons ms' s'.
Proof.
  intros (E1 & E2 & E3 & E4 & E5 & E6 & E7 & E8) Eo Ho Hp (tail & lost & elost & total & HI).
  pose proof (o_types_data _ _ _ _ _ _ _ _ _ HI) as Htd. destruct HI as [H1 H2 H3 H4 H5 H6 H7 H8 H9 H10 H11 H12 H13 H14].
  cbn [p_send p_prefix p_src p_single p_errsrc p_stderr p_sock] in E3, E4, E5, E6, E7, E8. cbn [p_send p_vout p_dead] in E1, E2.
  destruct (negb (p_dead s) && ok) eqn:En.
  - apply andb_true_iff in En as [En1 En2]. apply negb_true_iff in En1. subst ok. rewrite En1 in *. cbn [orb negb] in E2.
    destruct (H2 eq_refl) as (-> & -> & ->). rewrite eof_frame in E1.
    exists (ms ++ [(out_type c, [])]), [], [], [], total.
    constructor; rewrite ?E1, ?E2, ?E3, ?E4, ?E5, ?E6, ?E7, ?E8, ?Eo; try assumption.
    + rewrite H1, wire_app. unfold wire at 3. cbn [map concat]. rewrite !app_nil_r. reflexivity.
    + apply Forall_app. split; [exact H3|]. constructor; [|constructor]. cbn. split; [auto|lia].
    + rewrite payload_app. unfold payload at 2. cbn [filter fst]. rewrite Z.eqb_refl. cbn [map concat snd]. rewrite app_nil_r. exact H4.
    + rewrite payload_app. unfold payload at 2. cbn [filter fst]. rewrite (proj2 (Z.eqb_neq _ _) (out_type_not_stderr c)). cbn [map concat]. rewrite app_nil_r. exact H6.
    + intros X. specialize (H7 X). rewrite Ho in H7. cbn [b2n] in *. rewrite eofs_app. unfold eofs at 2. cbn [filter fst snd]. rewrite Z.eqb_refl. cbn. lia.
    + intros _ _ X _. specialize (H7 X). rewrite Ho in H7. cbn [b2n] in *. rewrite eofs_app. unfold eofs at 2. cbn [filter fst snd]. rewrite Z.eqb_refl. cbn. lia.
    + rewrite eofs_app. unfold eofs at 2. cbn [filter fst snd]. rewrite (proj2 (Z.eqb_neq _ _) (out_type_not_stderr c)). cbn [andb length]. lia.
    + intros X _ Y. rewrite eofs_app. unfold eofs at 2. cbn [filter fst snd]. rewrite (proj2 (Z.eqb_neq _ _) (out_type_not_stderr c)). cbn [andb length]. rewrite (H10 X eq_refl Y). reflexivity.
    + intros X Y. destruct (H11 X Y) as [Z1 Z2]. specialize (H7 X). rewrite Ho in H7. cbn [b2n] in H7.
      assert (Hne : ~ ended ms) by (intros He; apply (ended_eofs (out_type c) ms Htd He); lia).
      rewrite stream_of_open by exact Hne. rewrite payload_app. unfold payload at 2. cbn [stream_of filter fst]. rewrite out_type_data, Z.eqb_refl. cbn [map concat snd]. rewrite !app_nil_r.
      split; [exact Z1|]. intros _. left. destruct Hp as [Hp|[Hp1 Hp2]]; [exact Hp|]. destruct Y; tauto.
  - assert (Ed : p_dead s' = true). { rewrite E2. destruct (p_dead s); [reflexivity|]. cbn in En. rewrite En. reflexivity. }
    exists ms, tail, lost, elost, total. constructor; rewrite ?E1, ?E3, ?E4, ?E5, ?E6, ?E7, ?E8, ?Eo; try assumption; try (intros; congruence).
    + intros X. specialize (H7 X). cbn [b2n]. lia.
    + intros X Y. destruct (H11 X Y) as [Z1 Z2]. split; [exact Z1|]. auto.
Qed.

(** handle_input_v2 on stdout *)
Lemma Out_stdout k c cons ms s rc t s' :
  Tx (out_type c) (c_max (pc_rx c)) rc {| tx_src := p_src s; tx_prefix := p_prefix s; tx_out := p_vout s; tx_dup := []; tx_dead := p_dead s |} t ->
  p_vout s' = tx_out t -> p_dead s' = tx_dead t -> p_prefix s' = tx_prefix t -> p_src s' = tx_src t ->
  p_single s' = p_single s -> p_errsrc s' = p_errsrc s -> p_stderr s' = p_stderr s -> p_sock s' = p_sock s ->
  (match rc with
   | REMOTE_EOF => p_stdout s' = false
   | REMOTE_ERROR => p_stdout s' = p_stdout s \/ (p_stdout s' = false /\ service c = false /\ (tx_dead t = true \/ tx_prefix t = []))
   | _ => p_stdout s' = p_stdout s end) ->
  (p_prefix s = [] -> tx_prefix t = []) -> p_stdout s = true \/ p_prefix s <> [] -> (rc = REMOTE_EOF -> p_stdout s = true) ->
  Out k c cons ms s -> exists ms', Out k c cons ms' s'.
Proof.
  intros HT E1 E2 E3 E4 E5 E6 E7 E8 Eo Hpre Hcall Hopen (tail & lost & elost & total & HI).
  pose proof (o_types_data _ _ _ _ _ _ _ _ _ HI) as Htd. destruct HI as [H1 H2 H3 H4 H5 H6 H7 H8 H9 H10 H11 H12 H13 H14].
  apply Tx_more in HT as (more & l1 & t1 & A & B & C & D & E & F & G & I & J). cbn [tx_src tx_prefix tx_out tx_dead] in *.
  pose proof (payload_only _ _ _ A MSG_DATA_STDERR (out_type_not_stderr c)) as [Pe Ee].
  exists (ms ++ more), (tail ++ t1), (lost ++ l1), elost, total.
  assert (Hd0 : p_dead s' = false -> p_dead s = false).
  { rewrite E2. intros X. destruct (p_dead s) eqn:Ed; [|reflexivity]. destruct (D eq_refl) as (_ & _ & Y). congruence. }
  constructor; rewrite ?E1, ?E2, ?E3, ?E4, ?E5, ?E6, ?E7, ?E8; try assumption.
  - rewrite B, H1, wire_app. destruct (p_dead s) eqn:Ed.
    + destruct (D eq_refl) as (-> & -> & _). cbn. rewrite !app_nil_r. reflexivity.
    + destruct (H2 eq_refl) as (-> & _). cbn [app]. rewrite app_nil_r, <- !app_assoc. reflexivity.
  - intros X. rewrite <- E2 in X. specialize (Hd0 X). destruct (H2 Hd0) as (-> & -> & ->). rewrite E2 in X. destruct (E X) as [-> ->]. auto.
  - apply Forall_app. split; [exact H3|]. revert A. apply Forall_impl. intros m [-> ?]. auto.
  - rewrite payload_app. rewrite <- H4, C. destruct (p_dead s) eqn:Ed.
    + destruct (D eq_refl) as (-> & _ & _). cbn [app]. unfold payload at 2 4. cbn. rewrite app_nil_r, <- !app_assoc. reflexivity.
    + destruct (H2 eq_refl) as (_ & -> & _). cbn [app]. rewrite <- !app_assoc. reflexivity.
  - rewrite payload_app, Pe, app_nil_r. exact H6.
  - intros X. specialize (H7 X). rewrite eofs_app, F. destruct rc; try congruence.
    + assert (b2n (p_stdout s') <= b2n (p_stdout s)) by (destruct Eo as [Eo|[Eo _]]; rewrite Eo; cbn; lia). lia.
    + rewrite Eo. rewrite (Hopen eq_refl) in H7. cbn [b2n] in *. destruct (tx_dead t); lia.
    + rewrite Eo. lia.
  - intros X Y Z W. rewrite eofs_app, F. assert (Hd' : p_dead s = false) by (apply Hd0; congruence). destruct rc; try congruence.
    + destruct Eo as [Eo|[_ [Eo _]]]; [|congruence]. rewrite (H8 X Hd' Z ltac:(congruence)). reflexivity.
    + rewrite Y. specialize (H7 Z). rewrite (Hopen eq_refl) in H7. cbn [b2n] in H7. lia.
    + rewrite (H8 X Hd' Z ltac:(congruence)). reflexivity.
  - rewrite eofs_app, Ee. lia.
  - intros X Y Z. rewrite eofs_app, Ee, (H10 X (Hd0 ltac:(congruence)) Z). reflexivity.
  - intros X Y. destruct (H11 X Y) as [Z1 Z2]. split.
    + destruct (p_dead s) eqn:Ed. { destruct (D eq_refl) as (-> & _). rewrite app_nil_r. exact Z1. }
      destruct (p_stdout s) eqn:Eso.
      * specialize (H7 X). cbn [b2n] in H7. assert (Hne : ~ ended ms) by (intros He; apply (ended_eofs (out_type c) ms Htd He); lia).
        rewrite stream_of_open by exact Hne. rewrite payload_app, Z1, (I (out_type_data c)). reflexivity.
      * destruct (Z2 eq_refl) as [Hp|Hp]; [|discriminate]. destruct Hcall; [discriminate|congruence].
    + intros W. destruct rc; try congruence.
      * destruct Eo as [Eo|(_ & _ & [Eo|Eo])]; auto. rewrite Eo in W. destruct (Z2 W) as [Hp|Hp]; [destruct Hcall; congruence|].
        right. destruct (D Hp) as (_ & _ & ?). assumption.
      * left. exact (G eq_refl).
      * rewrite Eo in W. destruct (Z2 W) as [Hp|Hp]; [destruct Hcall; congruence|]. right. destruct (D Hp) as (_ & _ & ?). assumption.
  - intros X. apply Hpre. now apply H13.
Qed.

Lemma send_chunk_prefix st ty chunk s r s' : send_chunk st ty chunk s = (r, s') -> tx_prefix s' = tx_prefix s.
Proof. intros H. apply send_chunk_spec in H. tauto. Qed.
Lemma handle_input_prefix ty fd_open max dup steps : forall s rc s', handle_input_v2 ty fd_open max dup steps s = (rc, s') ->
  tx_prefix s = [] -> tx_prefix s' = [].
Proof.
  induction steps as [|st steps IH]; intros s rc s' H Hp; cbn [handle_input_v2] in H. { injection H as <- <-. exact Hp. }
  destruct (i_space st <=? 8)%Z; [injection H as <- <-; exact Hp|]. cbv zeta in H. rewrite Hp in H.
  destruct fd_open; cbn [negb] in H; [|injection H as <- <-; exact Hp].
  assert (Send : forall chunk s1, tx_prefix s1 = [] -> match send_chunk st ty chunk s1 with (Some rc, s'') => (rc, s'') | (None, s'') => handle_input_v2 ty true max dup steps s'' end = (rc, s') -> tx_prefix s' = []).
  { intros chunk s1 H1 H2. destruct (send_chunk st ty chunk s1) as [r s2] eqn:E. apply send_chunk_prefix in E. destruct r.
    - injection H2 as <- <-. congruence.
    - eapply IH; [exact H2|congruence]. }
  destruct (i_read st) as [k| | |].
  - eapply Send; [|exact H]. reflexivity.
  - apply (Send [] s Hp H).
  - injection H as <- <-. exact Hp.
  - injection H as <- <-. exact Hp.
Qed.
(** an end of input is only seen on an open descriptor *)
Lemma handle_input_eof_open ty max dup steps : 0 < max -> forall s s', handle_input_v2 ty false max dup steps s <> (REMOTE_EOF, s').
Proof.
  intros Hmax. induction steps as [|st steps IH]; intros s s'; cbn [handle_input_v2]; [discriminate|].
  destruct (Z.leb_spec (i_space st) 8); [discriminate|]. cbv zeta. destruct (tx_prefix s) as [|a p] eqn:Ep; [discriminate|]. rewrite <- Ep.
  destruct (send_chunk _ _ _ _) as [r s2] eqn:E. apply send_chunk_spec in E as (_ & _ & _ & D). destruct r as [rc|]; [|apply IH].
  intros X. injection X as -> _. destruct D as (t & _ & _ & D & _). apply (f_equal (@length ascii)) in D. rewrite firstn_length_le in D by lia.
  rewrite Ep in D. cbn [length] in D. lia.
Qed.

(** handle_input_v2 on stderr *)
Lemma Out_stderr k c cons ms s rc t s' :
  Tx MSG_DATA_STDERR (c_max (pc_rx c)) rc {| tx_src := p_errsrc s; tx_prefix := []; tx_out := p_vout s; tx_dup := p_dup s; tx_dead := p_dead s |} t ->
  tx_prefix t = [] -> p_vout s' = tx_out t -> p_dead s' = tx_dead t -> p_errsrc s' = tx_src t -> p_prefix s' = p_prefix s -> p_src s' = p_src s ->
  p_single s' = p_single s -> p_sock s' = p_sock s -> p_stdout s' = p_stdout s -> p_stderr s = true ->
  p_stderr s' = (match rc with REMOTE_EOF => false | _ => true end) ->
  Out k c cons ms s -> exists ms', Out k c cons ms' s'.
Proof.
  intros HT Ep E1 E2 E3 E4 E5 E6 E7 E8 Hopen Eo (tail & lost & elost & total & HI).
  pose proof (o_types_data _ _ _ _ _ _ _ _ _ HI) as Htd. destruct HI as [H1 H2 H3 H4 H5 H6 H7 H8 H9 H10 H11 H12 H13 H14].
  apply Tx_more in HT as (more & l1 & t1 & A & B & C & D & E & F & G & I & J). cbn [tx_src tx_prefix tx_out tx_dead app] in *. rewrite Ep in C. cbn [app] in C.
  assert (Hne : MSG_DATA_STDERR <> out_type c) by (intros X; symmetry in X; now apply out_type_not_stderr in X).
  pose proof (payload_only _ _ _ A (out_type c) Hne) as [Pe Ee].
  assert (Hserv : service c = true). { destruct (service c) eqn:Es; [reflexivity|]. specialize (H14 eq_refl). congruence. }
  exists (ms ++ more), (tail ++ t1), lost, (elost ++ l1), total.
  assert (Hd0 : p_dead s' = false -> p_dead s = false).
  { rewrite E2. intros X. destruct (p_dead s) eqn:Ed; [|reflexivity]. destruct (D eq_refl) as (_ & _ & Y). congruence. }
  assert (Hst : forall a, stream_of a = payload (out_type c) a -> Forall (fun m : message => fst m = MSG_DATA_STDERR) more -> stream_of (a ++ more) = payload (out_type c) (a ++ more)).
  { intros a Ha Hf. rewrite payload_app, Pe, app_nil_r, <- Ha. clear - Hf. induction a as [|[t p] a IHa]; cbn [app stream_of].
    - induction Hf as [|[t p] l Hm Hl IHl]; [reflexivity|]. cbn [fst] in Hm. subst t. cbn [stream_of is_data]. exact IHl.
    - destruct (is_data t); [destruct p; [reflexivity|now rewrite IHa]|exact IHa]. }
  constructor; rewrite ?E1, ?E2, ?E3, ?E4, ?E5, ?E6, ?E7, ?E8; try assumption.
  - rewrite B, H1, wire_app. destruct (p_dead s) eqn:Ed.
    + destruct (D eq_refl) as (-> & -> & _). cbn. rewrite !app_nil_r. reflexivity.
    + destruct (H2 eq_refl) as (-> & _). cbn [app]. rewrite app_nil_r, <- !app_assoc. reflexivity.
  - intros X. rewrite <- E2 in X. specialize (Hd0 X). destruct (H2 Hd0) as (-> & -> & ->). rewrite E2 in X. destruct (E X) as [-> ->]. auto.
  - apply Forall_app. split; [exact H3|]. revert A. apply Forall_impl. intros m [-> ?]. auto.
  - rewrite payload_app, Pe, app_nil_r. exact H4.
  - rewrite payload_app. rewrite <- H6, C. destruct (p_dead s) eqn:Ed.
    + destruct (D eq_refl) as (-> & _ & _). cbn [app]. unfold payload at 2 4. cbn. rewrite app_nil_r, <- !app_assoc. reflexivity.
    + destruct (H2 eq_refl) as (_ & _ & ->). cbn [app]. rewrite <- !app_assoc. reflexivity.
  - intros X. rewrite eofs_app, Ee. specialize (H7 X). lia.
  - intros X Y Z W. rewrite eofs_app, Ee, (H8 X (Hd0 ltac:(congruence)) Z W). reflexivity.
  - rewrite eofs_app, F, Eo. rewrite Hopen in H9. cbn [b2n] in H9. destruct rc; try congruence; cbn [b2n]; try lia. destruct (tx_dead t); lia.
  - intros X Y Z. rewrite Eo in Z. destruct rc; try discriminate. rewrite eofs_app, F, Y. rewrite Hopen in H9. cbn [b2n] in H9. lia.
  - intros X Y. destruct (H11 X Y) as [Z1 Z2]. split; [apply Hst; [exact Z1|revert A; apply Forall_impl; tauto]|].
    intros W. destruct (Z2 W) as [P|P]; [now left|]. right. destruct (D P) as (_ & _ & ?). assumption.
  - intros X. congruence.
Qed.

(** ** The whole state *)
Definition wf (k : ktx) (c : pcfg) : Prop :=
  0 < c_max (pc_rx c) /\ (Z.of_nat (c_max (pc_rx c)) < 4294967296)%Z /\
  (service c = true -> k_prefix k = []) /\ (service c = false -> k_haserr k = false /\ pc_exit_stdin c = false /\ pc_exit_stdout c = false) /\
  (k_haserr k = false -> k_err k = []) /\ (pc_exit_stdin c = true -> k_single k = true) /\ (pc_exit_stdout c = true -> k_single k = true).

Definition Recv (k : ktx) (c : pcfg) (cons : list message) (m : mode) (s : pio) : Prop :=
  Rx (pc_rx c) (k_buf k) (-1) (k_base k) [] cons m (p_rx s) /\ Forall (sendable (c_max (pc_rx c))) cons /\
  is_open m = p_stdin s.

(** [q1]: nothing went wrong with the local process's stdin; [q2]: its output was read to the end *)
Definition Inv (k : ktx) (c : pcfg) (q1 q2 : bool) (s : pio) : Prop :=
  exists cons m ms, Recv k c cons m s /\ k_input k = wire cons ++ rx_in (p_rx s) /\ Out k c cons ms s /\
    (q1 = true -> m <> MBroken) /\
    (q2 = true -> p_single s = k_single k /\ (service c = true -> p_stdout s = false -> p_src s = []) /\ (p_stderr s = false -> p_errsrc s = [])) /\
    (p_single s = true \/ k_single k = false).

(** when the vchan fails: the messages taken are still a part of the input *)
Definition Fin (k : ktx) (c : pcfg) (s : pio) : Prop :=
  exists cons m ms, Rx (pc_rx c) (k_buf k) (-1) (k_base k) [] cons m (p_rx s) /\ Forall (sendable (c_max (pc_rx c))) cons /\
    is_prefix (wire cons) (k_input k) /\ Out k c cons ms s.

(** what [q1] and [q2] ask of the environment *)
Definition quiet1 (c : pcfg) (e : penv) : Prop :=
  (pc_local c = true -> e_child e = None) /\ e_hup e = false /\ no_werr (e_flush e) /\ Forall (fun st => no_werr (r_writes st)) (e_remote e) /\
  pc_exit_stdin c = false /\ pc_exit_stdout c = false.
Definition no_reset (steps : list istep) : Prop := Forall (fun st => i_read st <> IReset) steps.
Definition quiet2 (c : pcfg) (e : penv) : Prop :=
  e_usr1 e = false /\ no_reset (e_osteps e) /\ no_reset (e_esteps e) /\ pc_exit_stdin c = false.

Lemma no_reset_exists steps : no_reset steps -> ~ Exists (fun st => i_read st = IReset) steps.
Proof. intros H X. apply Exists_exists in X as (st & Hi & Hr). unfold no_reset in H. rewrite Forall_forall in H. now apply (H st Hi). Qed.

Lemma Recv_close k c cons m s s' : Recv k c cons m s -> p_rx s' = p_rx s -> p_stdin s' = false ->
  exists m', Recv k c cons m' s' /\ (m <> MOpen -> m' = m) /\ (m' = MBroken -> p_stdin s = true \/ m = MBroken).
Proof.
  intros (A & B & C) Er Ei. destruct m.
  - exists MBroken. split; [split; [rewrite Er; eapply Rx_break; exact A|split; [exact B|rewrite Ei; reflexivity]]|]. split; [congruence|]. intros _. left. rewrite <- C. reflexivity.
  - exists MDone. split; [split; [rewrite Er; exact A|split; [exact B|rewrite Ei; reflexivity]]|]. split; [auto|discriminate].
  - exists MBroken. split; [split; [rewrite Er; exact A|split; [exact B|rewrite Ei; reflexivity]]|]. split; auto.
Qed.

Lemma same_out_fds s i o saved : same_out s (p_fds s i o saved).
Proof. repeat split. Qed.
Lemma same_out_fds2 s s' i o saved : same_out s s' -> same_out s (p_fds s' i o saved).
Proof. intros H. exact H. Qed.

(** close_stdin *)
Lemma Inv_close_stdin k c q1 q2 ok s : wf k c -> Inv k c q1 q2 s -> (q1 = true -> p_stdin s = false) -> (q2 = true -> pc_exit_stdin c = false) ->
  Inv k c q1 q2 (close_stdin c ok s).
Proof.
  intros Hwf (cons & m & ms & R & Hin & HO & Q1 & Q2 & Hs) Hq1 Hq2. unfold close_stdin.
  destruct (pc_exit_stdin c) eqn:Ex.
  - assert (Hserv : service c = true). { destruct (service c) eqn:Es; [reflexivity|]. destruct Hwf as (_ & _ & _ & W & _). destruct (W Es) as (_ & W2 & _). congruence. }
    assert (Hpre : p_prefix s = []). { destruct HO as (? & ? & ? & ? & HO). apply (o_prefix _ _ _ _ _ _ _ _ _ HO). destruct Hwf as (_ & _ & W & _). auto. }
    cbv zeta. set (s1 := if p_stdout s then p_send s ok (enc32 (out_type c) ++ enc32 0) else s).
    assert (Er : p_rx s1 = p_rx s) by (unfold s1; destruct (p_stdout s); reflexivity).
    destruct (Recv_close k c cons m s (p_fds s1 false false (p_saved s1)) R) as (m' & R' & M1 & M2); [exact Er|reflexivity|].
    assert (HO' : exists ms', Out k c cons ms' (p_fds s1 false false (p_saved s1))).
    { unfold s1. destruct (p_stdout s) eqn:Eo.
      - eapply Out_eof; [apply same_out_fds|reflexivity|exact Eo|now left|exact HO].
      - exists ms. eapply Out_close; [apply same_out_fds|reflexivity|exact HO|now left]. }
    destruct HO' as (ms' & HO'). exists cons, m', ms'. split; [exact R'|]. split; [cbn [p_fds p_rx]; rewrite Er; exact Hin|]. split; [exact HO'|].
    split; [intros X Y; destruct (M2 Y) as [Z|Z]; [rewrite (Hq1 X) in Z; discriminate|now apply (Q1 X)]|]. split; [intros X; specialize (Hq2 X); discriminate|].
    cbn [p_fds p_single]. unfold s1. destruct (p_stdout s); exact Hs.
  - destruct (Recv_close k c cons m s (p_fds s false (p_stdout s) (p_saved s && negb (p_stdin s && negb (p_single s) && pc_closes c))) R) as (m' & R' & M1 & M2); [reflexivity|reflexivity|].
    exists cons, m', ms. split; [exact R'|]. split; [exact Hin|]. split; [eapply Out_same; [apply same_out_fds|reflexivity|exact HO]|].
    split; [intros X Y; destruct (M2 Y) as [Z|Z]; [rewrite (Hq1 X) in Z; discriminate|now apply (Q1 X)]|]. split; [exact Q2|exact Hs].
Qed.

Lemma Inv_child k c q1 q2 e s : wf k c -> Inv k c q1 q2 s -> (q1 = true -> quiet1 c e) -> (q2 = true -> quiet2 c e) -> Inv k c q1 q2 (pio_child c e s).
Proof.
  intros Hwf HI Hq1 Hq2. unfold pio_child. destruct (e_child e) as [z|] eqn:Ec; [|exact HI].
  destruct (pc_local c && (p_local s <? 0)%Z) eqn:El; [|exact HI]. apply andb_true_iff in El as [El _].
  apply Inv_close_stdin; [exact Hwf| | |].
  - destruct HI as (cons & m & ms & R & Hin & HO & Q1 & Q2 & Hs). exists cons, m, ms. split; [exact R|]. split; [exact Hin|].
    split; [refine (Out_same _ _ _ _ _ _ _ _ HO); [repeat split|reflexivity]|]. auto.
  - intros X. destruct (Hq1 X) as (Y & _). specialize (Y El). congruence.
  - intros X. destruct (Hq2 X) as (_ & _ & _ & Y). exact Y.
Qed.

Lemma Inv_usr1 k c q1 q2 e s : wf k c -> Inv k c q1 q2 s -> (q2 = true -> quiet2 c e) -> Inv k c q1 q2 (pio_usr1 c e s).
Proof.
  intros Hwf HI Hq2. unfold pio_usr1. destruct (e_usr1 e && negb (p_single s)) eqn:E; [|exact HI].
  apply andb_true_iff in E as [E1 E2]. apply negb_true_iff in E2.
  destruct HI as (cons & m & ms & R & Hin & HO & Q1 & Q2 & Hs).
  assert (Hk : k_single k = false) by (destruct Hs; congruence).
  assert (Hex : pc_exit_stdout c = false). { destruct (pc_exit_stdout c) eqn:Ex; [|reflexivity]. destruct Hwf as (_ & _ & _ & _ & _ & _ & W). specialize (W Ex). congruence. }
  cbv zeta. unfold close_stdout. rewrite Hex. cbn [p_fds p_stdin p_saved p_stderr p_local p_rx p_prefix p_sock p_errsrc p_vout p_dup p_dead].
  exists cons, m, ms. split; [exact R|]. split; [exact Hin|]. split; [|split; [exact Q1|split; [|left; reflexivity]]].
  - destruct HO as (tail & lost & elost & total & HI). destruct HI as [H1 H2 H3 H4 H5 H6 H7 H8 H9 H10 H11 H12 H13 H14].
    exists tail, lost, elost, (payload (out_type c) ms ++ lost ++ p_prefix s ++ p_sock s).
    constructor; cbn [p_vout p_dead p_prefix p_src p_single p_errsrc p_stdout p_stderr p_sock]; try assumption; try congruence; try reflexivity.
    rewrite Hk. cbn [xorb legit]. exists (payload (out_type c) ms ++ lost ++ p_prefix s). split.
    + rewrite E2, Hk in H5. cbn [xorb legit] in H5. rewrite <- H5, <- H4. exists (p_src s). rewrite <- !app_assoc. reflexivity.
    + rewrite H12, <- !app_assoc. reflexivity.
  - intros X. destruct (Hq2 X) as (Y & _). congruence.
Qed.

(** What may be said of an outcome *)
Definition exit_sent (k : ktx) (c : pcfg) (q1 q2 : bool) (s : pio) : Prop :=
  exists s0, Inv k c q1 q2 s0 /\ service c = true /\ all_closed s0 = true /\ p_dead s0 = false /\
    (pc_local c = true -> 0 <= p_local s0)%Z /\ s = p_send s0 true (exit_code_msg (if pc_local c then p_local s0 else 0%Z)).
Definition Outcome (k : ktx) (c : pcfg) (q1 q2 : bool) (o : poutcome) : Prop :=
  match o with
  | PGo s => Inv k c q1 q2 s
  | PDone s => Inv k c q1 q2 s \/ exit_sent k c q1 q2 s
  | PDie s => Fin k c s \/ exists s0, Fin k c s0 /\ service c = true /\ all_closed s0 = true /\ p_dead s = true /\ p_rx s = p_rx s0 /\
      p_vout s = p_vout s0 ++ enc32 MSG_DATA_EXIT_CODE ++ enc32 4
  | PAbort => True
  end.

Lemma Inv_Fin k c q1 q2 s : Inv k c q1 q2 s -> Fin k c s.
Proof.
  intros (cons & m & ms & (A & B & C) & Hin & HO & _). exists cons, m, ms. split; [exact A|]. split; [exact B|]. split; [eexists; exact Hin|exact HO].
Qed.

Lemma Outcome_done k c q1 q2 e s o : Inv k c q1 q2 s -> pio_all_done c e s = Some o -> Outcome k c q1 q2 o.
Proof.
  intros HI H. unfold pio_all_done in H. destruct (all_closed s) eqn:Ea; [|discriminate].
  destruct (service c) eqn:Es.
  - destruct (negb (pc_local c) || (0 <=? p_local s)%Z) eqn:El; [|discriminate]. cbv zeta in H.
    assert (Hl : (pc_local c = true -> 0 <= p_local s)%Z).
    { intros X. rewrite X in El. cbn [negb orb] in El. now apply Z.leb_le. }
    assert (Dead : forall d, Fin k c (p_send s false d)).
    { intros d. destruct (Inv_Fin _ _ _ _ _ HI) as (cons & m & ms & A & B & C & (tail & lost & elost & total & [H1 H2 H3 H4 H5 H6 H7 H8 H9 H10 H11 H12 H13 H14])).
      exists cons, m, ms. split; [exact A|]. split; [exact B|]. split; [exact C|]. exists tail, lost, elost, total.
      constructor; cbn [p_send p_vout p_dead p_prefix p_src p_single p_errsrc p_stdout p_stderr p_sock]; rewrite ?andb_false_r, ?orb_true_r; try assumption; try discriminate.
      intros X Y. destruct (H11 X Y) as [Z1 Z2]. split; [exact Z1|]. auto. }
    destruct (e_code e).
    + destruct (p_dead s) eqn:Ed; injection H as <-; cbn [Outcome].
      * left. eapply Inv_Fin. exact HI.
      * right. exists s. auto 10.
    + injection H as <-. left. apply Dead.
    + injection H as <-. cbn [Outcome]. destruct (p_dead s) eqn:Ed.
      * left. destruct (Dead []) as (cons & m & ms & A & B & C & D). exists cons, m, ms. split; [exact A|]. split; [exact B|]. split; [exact C|].
        refine (Out_same _ _ _ _ _ _ _ _ D); [|reflexivity]. cbn [p_send same_out]. repeat split; cbn [p_send p_vout p_dead]; rewrite Ed; reflexivity.
      * right. exists s. split; [eapply Inv_Fin; exact HI|]. split; [exact Es|]. split; [exact Ea|]. cbn [p_send p_dead p_vout]. rewrite Ed. cbn. repeat split; reflexivity.
  - destruct (_ && _); [|discriminate]. injection H as <-. left. exact HI.
Qed.

Lemma Outcome_remote k c q1 q2 e s : wf k c -> Inv k c q1 q2 s -> (q1 = true -> quiet1 c e) -> (q2 = true -> quiet2 c e) ->
  Outcome k c q1 q2 (pio_remote c e s).
Proof.
  intros Hwf HI Hq1 Hq2. pose proof Hwf as (W1 & W2 & W3 & W4 & W5 & W6 & W7).
  destruct HI as (cons & m & ms & (R1 & R2 & R3) & Hin & HO & Q1 & Q2 & Hs). unfold pio_remote. rewrite <- R3.
  destruct (handle_remote_data_v2 (pc_rx c) (is_open m) (e_flush e) (e_remote e) (p_rx s)) as [[rc r]|] eqn:E; [|exact Logic.I].
  destruct (handle_remote_data_spec (pc_rx c) (k_buf k) (-1) (k_base k) [] _ _ W2 _ _ _ _ _ E R1) as (more & tail & m' & A & B & C & D & F & G & X).
  assert (Hcons : Forall (sendable (c_max (pc_rx c))) (cons ++ more)) by (apply Forall_app; auto).
  assert (Hin' : rc <> REMOTE_ERROR -> k_input k = wire (cons ++ more) ++ rx_in r).
  { intros Y. rewrite (C Y), wire_app, <- app_assoc, <- A. exact Hin. }
  assert (HO' : Out k c (cons ++ more) ms (p_set_rx s r)).
  { refine (Out_same _ _ _ _ _ _ _ _ (Out_cons _ _ _ more _ _ HO)); [repeat split|reflexivity]. }
  assert (Base : rc <> REMOTE_ERROR -> rc <> REMOTE_EOF -> Inv k c q1 q2 (p_set_rx s r)).
  { intros Y1 Y2. exists (cons ++ more), m', ms. rewrite (F Y2) in *. split; [split; [exact D|split; [exact Hcons|exact R3]]|]. split; [exact (Hin' Y1)|]. split; [exact HO'|].
    split; [exact Q1|]. split; [exact Q2|exact Hs]. }
  destruct rc; cbn [Outcome].
  - (* exited *)
    destruct (X eq_refl) as [X1 [px X2]]. change (service c = false) in X1. destruct (W4 X1) as (_ & W8 & W9).
    assert (BI : Inv k c q1 q2 (p_set_rx s r)) by (apply Base; discriminate).
    destruct BI as (cons1 & m1 & ms1 & RR & Hin1 & HO1 & Q11 & Q21 & Hs1). cbv zeta. unfold close_stdout. rewrite W9.
    change (p_stdout (p_set_rx s r)) with (p_stdout s). 
    assert (F1 : m' = m) by (apply F; discriminate).
    assert (HE : exists ms', Out k c (cons ++ more) ms' (p_fds (if p_stdout s then p_send (p_set_rx s r) (e_send e) (enc32 (out_type c) ++ enc32 0) else p_set_rx s r)
       (p_stdin (if p_stdout s then p_send (p_set_rx s r) (e_send e) (enc32 (out_type c) ++ enc32 0) else p_set_rx s r)) false
       (p_saved (if p_stdout s then p_send (p_set_rx s r) (e_send e) (enc32 (out_type c) ++ enc32 0) else p_set_rx s r)))).
    { destruct (p_stdout s) eqn:Eo.
      - eapply Out_eof; [apply same_out_fds|reflexivity|exact Eo| |exact HO']. cbn [p_set_rx p_prefix].
        destruct (k_prefix k) eqn:Ekp.
        + left. destruct HO as (? & ? & ? & ? & HO). apply (o_prefix _ _ _ _ _ _ _ _ _ HO). exact Ekp.
        + right. split; [discriminate|]. intros Y. apply (Y px). apply in_or_app. now right.
      - exists ms. eapply Out_close; [apply same_out_fds|reflexivity|exact HO'|now left]. }
    destruct HE as (ms' & HE). exists (cons ++ more), m', ms'. rewrite F1 in *. split; [|split; [|split; [exact HE|split; [exact Q1|split]]]].
    + split; [|split; [exact Hcons|]]; destruct (p_stdout s); [exact D|exact D|exact R3|exact R3].
    + rewrite (Hin' ltac:(discriminate)). destruct (p_stdout s); reflexivity.
    + intros Y. destruct (Q2 Y) as (Y1 & Y2 & Y3). destruct (p_stdout s); (split; [exact Y1|split; [congruence|exact Y3]]).
    + destruct (p_stdout s); exact Hs.
  - (* error *)
    left. exists (cons ++ more), m', ms. split; [exact D|]. split; [exact Hcons|]. split; [|exact HO'].
    exists tail. rewrite wire_app, <- app_assoc, <- A. exact Hin.
  - (* end of stream *)
    destruct (G eq_refl) as [-> Hm'].
    (* as if it was closed before close_stdin *)
    assert (BI : Inv k c q1 q2 (p_fds (p_set_rx s r) false (p_stdout s) (p_saved s))).
    { exists (cons ++ more), m', ms. split; [split; [exact D|split; [exact Hcons|]]|].
      - destruct Hm' as [->|[-> _]]; reflexivity.
      - split; [exact (Hin' ltac:(discriminate))|]. split; [refine (Out_same _ _ _ _ _ _ _ _ HO'); [repeat split|reflexivity]|].
        split; [|split; [exact Q2|exact Hs]]. intros Y Z. destruct Hm' as [Hm'|[_ Hm']]; [congruence|]. destruct (Hq1 Y) as (_ & _ & Y1 & Y2 & _). now apply Hm'. }
    apply (Inv_close_stdin k c q1 q2 (e_send e)) in BI; [|exact Hwf|reflexivity|intros Y; destruct (Hq2 Y) as (_ & _ & _ & Y2); exact Y2].
    (* the two ways to close only differ in saved_stdin_fd *)
    assert (Fix : forall a b, (exists x, b = p_fds a (p_stdin a) (p_stdout a) x) -> Inv k c q1 q2 a -> Inv k c q1 q2 b).
    { intros a b [x ->] (c1 & m1 & ms1 & I1 & I2 & I3 & I4 & I5 & I6). exists c1, m1, ms1. split; [exact I1|]. split; [exact I2|]. split; [refine (Out_same _ _ _ _ _ _ _ _ I3); [repeat split|reflexivity]|]. auto. }
    eapply Fix; [|exact BI]. unfold close_stdin. destruct (pc_exit_stdin c).
    + cbv zeta. destruct (p_stdout s) eqn:Eo; cbn [p_fds p_set_rx p_stdout p_stdin]; rewrite ?Eo; eexists; reflexivity.
    + eexists. reflexivity.
  - apply Base; discriminate.
Qed.

Lemma Outcome_stdout k c q1 q2 e s : wf k c -> Inv k c q1 q2 s -> (q1 = true -> quiet1 c e) -> (q2 = true -> quiet2 c e) ->
  Outcome k c q1 q2 (pio_stdout c e s).
Proof.
  intros Hwf HI Hq1 Hq2. pose proof Hwf as (W1 & W2 & W3 & W4 & W5 & W6 & W7).
  unfold pio_stdout. destruct (negb (length (p_prefix s) =? 0) || (p_stdout s && e_outrev e)) eqn:Ec; [|exact HI].
  assert (Hcall : p_stdout s = true \/ p_prefix s <> []).
  { apply orb_true_iff in Ec as [Ec|Ec]; [right|left; now apply andb_true_iff in Ec as [Ec _]].
    intros X. rewrite X in Ec. discriminate. }
  destruct HI as (cons & m & ms & R & Hin & HO & Q1 & Q2 & Hs).
  set (t0 := {| tx_src := p_src s; tx_prefix := p_prefix s; tx_out := p_vout s; tx_dup := []; tx_dead := p_dead s |}).
  destruct (handle_input_v2 (out_type c) (p_stdout s) (c_max (pc_rx c)) false (e_osteps e) t0) as [rc t] eqn:E.
  pose proof (handle_input_spec _ _ _ _ _ W1 _ _ _ E) as HT.
  pose proof (handle_input_prefix _ _ _ _ _ _ _ _ E) as HP. cbn [t0 tx_prefix] in HP.
  assert (Heof : rc = REMOTE_EOF -> p_stdout s = true).
  { intros ->. destruct (p_stdout s); [reflexivity|]. exfalso. eapply handle_input_eof_open; [exact W1|exact E]. }
  assert (Hsrc : q2 = true -> rc = REMOTE_EOF -> tx_src t = []).
  { intros Y ->. destruct (Hq2 Y) as (_ & Y2 & _). destruct (handle_input_eof _ _ _ _ _ W1 _ _ E) as [Z|Z]; [exact Z|]. exfalso. now apply (no_reset_exists _ Y2). }
  assert (Hserr : rc = REMOTE_ERROR -> tx_dead t = true \/ tx_prefix t = []).
  { intros ->. clear - E. revert E. generalize t0. intros u. clear t0. revert u t. induction (e_osteps e) as [|st steps IH]; intros u t E; cbn [handle_input_v2] in E; [discriminate|].
    destruct (i_space st <=? 8)%Z; [discriminate|]. cbv zeta in E.
    assert (Send : forall chunk u1, match send_chunk st (out_type c) chunk u1 with (Some rc, s'') => (rc, s'') | (None, s'') => handle_input_v2 (out_type c) (p_stdout s) (c_max (pc_rx c)) false steps s'' end = (REMOTE_ERROR, t) -> tx_dead t = true \/ tx_prefix t = []).
    { intros chunk u1 H. destruct (send_chunk st (out_type c) chunk u1) as [r u2] eqn:Es. apply send_chunk_spec in Es as (_ & _ & _ & D). destruct r as [rc0|].
      - injection H as -> <-. destruct D as (? & _ & _ & _ & _ & D). now left.
      - apply (IH _ _ H). }
    destruct (tx_prefix u) as [|a p] eqn:Ep.
    - destruct (p_stdout s) eqn:Eo; cbn [negb] in E; [|injection E as <-; now right].
      destruct (i_read st) as [kk| | |]; [eapply Send; exact E|apply (Send [] u E)|discriminate|injection E as <-; now right].
    - eapply Send; exact E. }
  cbv zeta. set (s1 := {| p_stdin := p_stdin s; p_stdout := p_stdout s; p_stderr := p_stderr s; p_saved := p_saved s; p_single := p_single s; p_local := p_local s;
                p_rx := p_rx s; p_prefix := tx_prefix t; p_src := tx_src t; p_sock := p_sock s; p_errsrc := p_errsrc s; p_vout := tx_out t;
                p_dup := p_dup s; p_dead := tx_dead t |}).
  (* without closing *)
  assert (Keep : rc <> REMOTE_EOF -> exists ms', Out k c cons ms' s1).
  { intros Y. eapply (Out_stdout k c cons ms s rc t s1 HT); try reflexivity; try assumption. destruct rc; try reflexivity; [left; reflexivity|congruence]. }
  (* closing: both ways, both configurations *)
  assert (Close : rc = REMOTE_EOF \/ rc = REMOTE_ERROR /\ service c = false -> Inv k c q1 q2 (close_stdout c s1)).
  { intros Y. assert (HO' : exists ms', Out k c cons ms' (close_stdout c s1)).
    { unfold close_stdout. destruct (pc_exit_stdout c); (eapply (Out_stdout k c cons ms s rc t); [exact HT|reflexivity|reflexivity|reflexivity|reflexivity|reflexivity|reflexivity|reflexivity|reflexivity| |exact HP|exact Hcall|exact Heof|exact HO]);
        (destruct Y as [-> | [-> Y2]]; [reflexivity|right; split; [reflexivity|split; [exact Y2|exact (Hserr eq_refl)]]]). }
    destruct HO' as (ms' & HO'). unfold close_stdout in *. destruct (pc_exit_stdout c) eqn:Ex.
    - destruct (Recv_close k c cons m s (p_fds s1 false false (p_saved s1)) R) as (m' & R' & M1 & M2); [reflexivity|reflexivity|].
      exists cons, m', ms'. split; [exact R'|]. split; [exact Hin|]. split; [exact HO'|]. split.
      + intros Z. destruct (Hq1 Z) as (_ & _ & _ & _ & _ & Z2). congruence.
      + split; [|exact Hs]. intros Z. destruct (Q2 Z) as (Z1 & Z2 & Z3). split; [exact Z1|]. split; [|exact Z3]. intros Z4 _. destruct Y as [Y|[_ Y]]; [exact (Hsrc Z Y)|congruence].
    - exists cons, m, ms'. split; [exact R|]. split; [exact Hin|]. split; [exact HO'|]. split; [exact Q1|]. split; [|exact Hs].
      intros Z. destruct (Q2 Z) as (Z1 & Z2 & Z3). split; [exact Z1|]. split; [|exact Z3]. intros Z4 _. destruct Y as [Y|[_ Y]]; [exact (Hsrc Z Y)|congruence]. }
  assert (Plain : rc = REMOTE_OK -> Inv k c q1 q2 s1).
  { intros Y. destruct (Keep ltac:(congruence)) as (ms' & HO'). exists cons, m, ms'. split; [exact R|]. split; [exact Hin|]. split; [exact HO'|]. split; [exact Q1|]. split; [|exact Hs].
    intros Z. destruct (Q2 Z) as (Z1 & Z2 & Z3). split; [exact Z1|]. split; [|exact Z3]. intros Z4 Z5. cbn [s1 p_stdout p_src] in *.
    destruct Hcall as [Hc|Hc]; [congruence|]. exfalso. apply Hc. destruct HO as (? & ? & ? & ? & HO). apply (o_prefix _ _ _ _ _ _ _ _ _ HO). auto. }
  destruct rc; cbn [Outcome].
  - apply Tx_more in HT as (? & ? & ? & _ & _ & _ & _ & _ & _ & _ & _ & X). congruence.
  - destruct (negb (service c) && (rx_status (p_rx s1) =? -1)%Z) eqn:Ed.
    + apply andb_true_iff in Ed as [Ed _]. apply negb_true_iff in Ed. apply Close. auto.
    + left. destruct (Keep ltac:(discriminate)) as (ms' & HO'). destruct R as (R1 & R2 & R3). exists cons, m, ms'. split; [exact R1|]. split; [exact R2|]. split; [eexists; exact Hin|exact HO'].
  - apply Close. auto.
  - apply Plain. reflexivity.
Qed.

Lemma Outcome_stderr k c q1 q2 e s : wf k c -> Inv k c q1 q2 s -> (q2 = true -> quiet2 c e) ->
  Outcome k c q1 q2 (pio_stderr c e s).
Proof.
  intros Hwf HI Hq2. pose proof Hwf as (W1 & W2 & W3 & W4 & W5 & W6 & W7).
  unfold pio_stderr. destruct (p_stderr s && e_errrev e) eqn:Ec; [|exact HI]. apply andb_true_iff in Ec as [Ec _].
  destruct HI as (cons & m & ms & R & Hin & HO & Q1 & Q2 & Hs).
  set (t0 := {| tx_src := p_errsrc s; tx_prefix := []; tx_out := p_vout s; tx_dup := p_dup s; tx_dead := p_dead s |}).
  destruct (handle_input_v2 MSG_DATA_STDERR true (c_max (pc_rx c)) (pc_dup c) (e_esteps e) t0) as [rc t] eqn:E.
  pose proof (handle_input_spec _ _ _ _ _ W1 _ _ _ E) as HT.
  pose proof (handle_input_prefix _ _ _ _ _ _ _ _ E eq_refl) as HP.
  cbv zeta. set (s1 := {| p_stdin := p_stdin s; p_stdout := p_stdout s; p_stderr := p_stderr s; p_saved := p_saved s; p_single := p_single s; p_local := p_local s;
                p_rx := p_rx s; p_prefix := p_prefix s; p_src := p_src s; p_sock := p_sock s; p_errsrc := tx_src t; p_vout := tx_out t;
                p_dup := tx_dup t; p_dead := tx_dead t |}).
  assert (Keep : rc <> REMOTE_EOF -> exists ms', Out k c cons ms' s1).
  { intros Y. eapply (Out_stderr k c cons ms s rc t s1 HT HP); try reflexivity; try assumption. cbn [s1 p_stderr]. rewrite Ec. destruct rc; try reflexivity; congruence. }
  destruct rc; cbn [Outcome].
  - apply Tx_more in HT as (? & ? & ? & _ & _ & _ & _ & _ & _ & _ & _ & X). congruence.
  - left. destruct (Keep ltac:(discriminate)) as (ms' & HO'). destruct R as (R1 & R2 & R3). exists cons, m, ms'. split; [exact R1|]. split; [exact R2|]. split; [eexists; exact Hin|exact HO'].
  - assert (HO' : exists ms', Out k c cons ms' (p_close_err s1)).
    { eapply (Out_stderr k c cons ms s REMOTE_EOF t); [exact HT|exact HP|reflexivity|reflexivity|reflexivity|reflexivity|reflexivity|reflexivity|reflexivity|reflexivity|exact Ec|reflexivity|exact HO]. }
    destruct HO' as (ms' & HO'). exists cons, m, ms'. split; [exact R|]. split; [exact Hin|]. split; [exact HO'|]. split; [exact Q1|]. split; [|exact Hs].
    intros Z. destruct (Q2 Z) as (Z1 & Z2 & Z3). split; [exact Z1|]. split; [exact Z2|]. intros _. destruct (Hq2 Z) as (_ & _ & Y2 & _).
    destruct (handle_input_eof _ _ _ _ _ W1 _ _ E) as [Y|Y]; [exact Y|]. exfalso. now apply (no_reset_exists _ Y2).
  - destruct (Keep ltac:(discriminate)) as (ms' & HO'). exists cons, m, ms'. split; [exact R|]. split; [exact Hin|]. split; [exact HO'|]. split; [exact Q1|]. split; [|exact Hs].
    intros Z. destruct (Q2 Z) as (Z1 & Z2 & Z3). split; [exact Z1|]. split; [exact Z2|]. cbn [s1 p_stderr]. congruence.
Qed.

Lemma Outcome_bind k c q1 q2 o f : Outcome k c q1 q2 o -> (forall s, Inv k c q1 q2 s -> Outcome k c q1 q2 (f s)) -> Outcome k c q1 q2 (pbind o f).
Proof. intros H Hf. destruct o; cbn [pbind]; [apply Hf|..]; exact H. Qed.

Theorem pio_step_inv k c q1 q2 e s : wf k c -> Inv k c q1 q2 s -> (q1 = true -> quiet1 c e) -> (q2 = true -> quiet2 c e) ->
  Outcome k c q1 q2 (pio_step c e s).
Proof.
  intros Hwf HI Hq1 Hq2. unfold pio_step. apply (Inv_child k c q1 q2 e) in HI; auto. cbv zeta. set (s1 := pio_child c e s) in *.
  destruct (pio_all_done c e s1) as [o|] eqn:Ed; [eapply Outcome_done; eassumption|].
  destruct (_ && _); [left; exact HI|].
  apply (Inv_usr1 k c q1 q2 e) in HI; auto. set (s2 := pio_usr1 c e s1) in *.
  destruct (e_poll e); [|exact HI|left; exact HI].
  destruct (negb (e_wait e)); [left; eapply Inv_Fin; exact HI|].
  set (s3 := if p_stdin s2 && e_hup e then close_stdin c (e_send e) s2 else s2).
  assert (HI3 : Inv k c q1 q2 s3).
  { unfold s3. destruct (p_stdin s2 && e_hup e) eqn:Eh; [|exact HI]. apply andb_true_iff in Eh as [_ Eh]. apply Inv_close_stdin; auto.
    - intros X. destruct (Hq1 X) as (_ & Y & _). congruence.
    - intros X. destruct (Hq2 X) as (_ & _ & _ & Y). exact Y. }
  apply Outcome_bind; [apply Outcome_remote; auto|]. intros s4 H4. apply Outcome_bind; [apply Outcome_stdout; auto|]. intros s5 H5. apply Outcome_stderr; auto.
Qed.

Theorem pio_run_inv k c q1 q2 es : wf k c -> (q1 = true -> Forall (quiet1 c) es) -> (q2 = true -> Forall (quiet2 c) es) ->
  forall s, Inv k c q1 q2 s -> Outcome k c q1 q2 (pio_run c es s).
Proof.
  intros Hwf. induction es as [|e es IH]; intros Hq1 Hq2 s HI; [exact HI|]. cbn [pio_run].
  apply Outcome_bind.
  - apply pio_step_inv; auto; intros X; [specialize (Hq1 X); now inversion Hq1|specialize (Hq2 X); now inversion Hq2].
  - apply IH; intros X; [specialize (Hq1 X); now inversion Hq1|specialize (Hq2 X); now inversion Hq2].
Qed.

Definition k_start (k : ktx) (c : pcfg) (send_ok : bool) : pio :=
  pio_start c (k_haserr k) (k_single k) send_ok (k_base k) (k_buf k) (k_prefix k) (k_src k) (k_sock k) (k_err k) (k_input k).
Theorem pio_start_inv k c ok q1 q2 : wf k c -> Inv k c q1 q2 (k_start k c ok).
Proof.
  intros Hwf. pose proof Hwf as (W1 & W2 & W3 & W4 & W5 & W6 & W7). unfold k_start, pio_start. cbv zeta.
  set (s := {| p_stdin := true; p_stdout := true; p_stderr := k_haserr k; p_saved := true; p_single := k_single k; p_local := -1; p_rx := _; p_prefix := _; p_src := _;
               p_sock := _; p_errsrc := _; p_vout := []; p_dup := []; p_dead := false |}).
  assert (RR : Rx (pc_rx c) (k_buf k) (-1) (k_base k) [] [] MOpen (p_rx s)).
  { split; [reflexivity|]. split; [destruct (c_service (pc_rx c)); reflexivity|]. split.
    - exists []. split; [reflexivity|]. destruct (c_service (pc_rx c)); constructor.
    - split; [intros (t & _ & [])|]. split; [cbn; destruct (c_replace_out (pc_rx c)); cbn; rewrite app_nil_r; reflexivity|cbn; lia]. }
  assert (Xs : p_single s = true \/ k_single k = false) by (cbn; destruct (k_single k); auto).
  assert (Legit : legit k (xorb (k_single k) (p_single s)) (k_prefix k ++ k_src k)) by (cbn [s p_single]; rewrite xorb_nilpotent; reflexivity).
  destruct (service c && negb (k_haserr k)) eqn:E.
  - apply andb_true_iff in E as [E1 E2]. apply negb_true_iff in E2.
    rewrite eof_frame. exists [], MOpen, (if ok then [(MSG_DATA_STDERR, [])] else []).
    split; [split; [exact RR|split; [constructor|reflexivity]]|]. split; [reflexivity|]. split; [|split; [discriminate|split; [|exact Xs]]].
    + assert (En : (MSG_DATA_STDERR =? out_type c)%Z = false) by (apply Z.eqb_neq, not_eq_sym, out_type_not_stderr).
      assert (W5' : k_err k = []) by auto.
      exists [], [], [], (k_prefix k ++ k_src k). destruct ok; constructor; cbn [p_send s p_vout p_dead p_prefix p_src p_single p_errsrc p_stdout p_stderr p_sock negb andb orb app];
        unfold payload, eofs; cbn [filter fst snd]; rewrite ?En, ?E2, ?W5'; try exact Legit; auto; try congruence; try (cbn; lia); try reflexivity.
      * constructor; [|constructor]. cbn. split; [auto|lia].
    + intros _. split; [reflexivity|]. split; [discriminate|]. intros _. cbn [p_send s p_errsrc]. auto.
  - exists [], MOpen, []. split; [split; [exact RR|split; [constructor|reflexivity]]|]. split; [reflexivity|]. split; [|split; [discriminate|split; [|exact Xs]]].
    + exists [], [], [], (k_prefix k ++ k_src k). constructor; cbn [s p_vout p_dead p_prefix p_src p_single p_errsrc p_stdout p_stderr p_sock app]; try exact Legit; auto; try congruence.
      * destruct (k_haserr k); cbn; lia.
      * intros Y _ Z. rewrite Y, Z in E. discriminate.
      * intros Y. now apply W4.
    + intros _. split; [reflexivity|]. split; [discriminate|]. cbn [s p_stderr p_errsrc]. auto.
Qed.
