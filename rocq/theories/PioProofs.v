(** Consequences of the invariant of process_io for the messages exchanged *)
From Coq Require Import String Ascii List Bool Arith ZArith Lia.
From Verif Require Import Io IoProofs Stream SpecStream StreamProofs RemoteProofs ProcessIo SpecPio ProcessIoProofs.
Import ListNotations.
Open Scope list_scope.

Definition kt (p : endpoint) (input : bytes) : ktx :=
  {| k_single := en_single p; k_haserr := en_haserr p; k_base := en_base p; k_buf := en_buf p; k_prefix := en_prefix p; k_src := en_src p;
     k_sock := en_sock p; k_err := en_err p; k_input := input |}.
Lemma sensible_wf p input : sensible p -> wf (kt p input) (en_cfg p).
Proof. intros H. exact H. Qed.
Lemma en_run_start p ok input es : en_run p ok input es = pio_run (en_cfg p) es (k_start (kt p input) (en_cfg p) ok).
Proof. reflexivity. Qed.

(** ** The fields that few steps change *)
Lemma single_close_stdin c ok s : p_single (close_stdin c ok s) = p_single s.
Proof. unfold close_stdin. destruct (pc_exit_stdin c); [destruct (p_stdout s)|]; reflexivity. Qed.
Lemma single_close_stdout c s : p_single (close_stdout c s) = p_single s.
Proof. unfold close_stdout. destruct (pc_exit_stdout c); reflexivity. Qed.
Lemma local_close_stdin c ok s : p_local (close_stdin c ok s) = p_local s.
Proof. unfold close_stdin. destruct (pc_exit_stdin c); [destruct (p_stdout s)|]; reflexivity. Qed.
Lemma local_close_stdout c s : p_local (close_stdout c s) = p_local s.
Proof. unfold close_stdout. destruct (pc_exit_stdout c); reflexivity. Qed.

Definition keeps (f : pio -> Prop) (o : poutcome) : Prop := match state_of o with Some s => f s | None => True end.
Lemma keeps_bind f o g : keeps f o -> (forall s, f s -> keeps f (g s)) -> keeps f (pbind o g).
Proof. intros H Hg. destruct o; cbn [pbind]; [apply Hg|..]; exact H. Qed.

(** the transfers touch neither p_single nor p_local *)
Lemma remote_keeps c e s a z : p_single s = a /\ p_local s = z -> keeps (fun s => p_single s = a /\ p_local s = z) (pio_remote c e s).
Proof.
  intros H. unfold pio_remote. destruct (handle_remote_data_v2 _ _ _ _ _) as [[[] r]|]; cbn [keeps state_of]; auto.
  - unfold keeps, state_of. rewrite single_close_stdout, local_close_stdout. destruct (p_stdout _); exact H.
  - unfold keeps, state_of. rewrite single_close_stdin, local_close_stdin. exact H.
Qed.
Lemma stdout_keeps c e s a z : p_single s = a /\ p_local s = z -> keeps (fun s => p_single s = a /\ p_local s = z) (pio_stdout c e s).
Proof.
  intros H. unfold pio_stdout. destruct (_ || _); [|exact H]. destruct (handle_input_v2 _ _ _ _ _ _) as [[] t]; cbv zeta.
  - exact H.
  - destruct (_ && _); [unfold keeps, state_of; rewrite single_close_stdout, local_close_stdout; exact H|exact H].
  - unfold keeps, state_of; rewrite single_close_stdout, local_close_stdout; exact H.
  - exact H.
Qed.
Lemma stderr_keeps c e s a z : p_single s = a /\ p_local s = z -> keeps (fun s => p_single s = a /\ p_local s = z) (pio_stderr c e s).
Proof. intros H. unfold pio_stderr. destruct (_ && _); [|exact H]. destruct (handle_input_v2 _ _ _ _ _ _) as [[] t]; exact H. Qed.

Lemma step_single_local c e s : 
  keeps (fun s' => (e_usr1 e = false -> p_single s' = p_single s) /\ (p_local s' = p_local s \/ (pc_local c = true /\ (p_local s < 0)%Z /\ e_child e = Some (p_local s'))))
        (pio_step c e s).
Proof.
  unfold pio_step. cbv zeta.
  assert (H1 : p_single (pio_child c e s) = p_single s /\ (p_local (pio_child c e s) = p_local s \/ (pc_local c = true /\ (p_local s < 0)%Z /\ e_child e = Some (p_local (pio_child c e s))))).
  { unfold pio_child. destruct (e_child e) as [z|]; [|auto]. destruct (pc_local c && (p_local s <? 0)%Z) eqn:E; [|auto].
    rewrite single_close_stdin, local_close_stdin. apply andb_true_iff in E as [E1 E2]. apply Z.ltb_lt in E2. cbn. auto. }
  set (s1 := pio_child c e s) in *. destruct H1 as [H1 H2].
  assert (G1 : keeps (fun s' => (e_usr1 e = false -> p_single s' = p_single s) /\ (p_local s' = p_local s \/ (pc_local c = true /\ (p_local s < 0)%Z /\ e_child e = Some (p_local s')))) (PGo s1)) by (split; auto).
  destruct (pio_all_done c e s1) as [o|] eqn:Ed.
  { unfold pio_all_done in Ed. destruct (all_closed s1); [|discriminate]. destruct (service c).
    - destruct (_ || _); [|discriminate]. destruct (e_code e); [destruct (p_dead s1)|..]; injection Ed as <-; exact G1.
    - destruct (_ && _); [|discriminate]. injection Ed as <-. exact G1. }
  destruct (_ && _); [exact G1|].
  set (s2 := pio_usr1 c e s1).
  assert (H3 : (e_usr1 e = false -> p_single s2 = p_single s) /\ p_local s2 = p_local s1).
  { unfold s2, pio_usr1. destruct (e_usr1 e && negb (p_single s1)) eqn:E; [|auto]. apply andb_true_iff in E as [E _]. split; [congruence|].
    cbn. rewrite local_close_stdout. reflexivity. }
  destruct H3 as [H3 H4].
  assert (G2 : forall s', p_single s' = p_single s2 /\ p_local s' = p_local s2 -> (e_usr1 e = false -> p_single s' = p_single s) /\ (p_local s' = p_local s \/ (pc_local c = true /\ (p_local s < 0)%Z /\ e_child e = Some (p_local s')))).
  { intros s' [-> ->]. rewrite H4. auto. }
  destruct (e_poll e); [|apply G2; auto|apply G2; auto].
  destruct (negb (e_wait e)); [apply G2; auto|].
  set (s3 := if p_stdin s2 && e_hup e then close_stdin c (e_send e) s2 else s2).
  assert (H5 : p_single s3 = p_single s2 /\ p_local s3 = p_local s2).
  { unfold s3. destruct (_ && _); [rewrite single_close_stdin, local_close_stdin|]; auto. }
  assert (K : keeps (fun s' => p_single s' = p_single s2 /\ p_local s' = p_local s2) (pbind (pio_remote c e s3) (fun s => pbind (pio_stdout c e s) (fun s => pio_stderr c e s)))).
  { apply keeps_bind; [apply remote_keeps; exact H5|]. intros s4 H6. apply keeps_bind; [apply stdout_keeps; exact H6|]. intros s5 H7. apply stderr_keeps. exact H7. }
  revert K. unfold keeps. destruct (state_of _); auto.
Qed.

Lemma run_single c es : no_usr1 es -> forall s, keeps (fun s' => p_single s' = p_single s) (pio_run c es s).
Proof.
  induction 1 as [|e es He Hes IH]; intros s; [reflexivity|]. cbn [pio_run].
  pose proof (step_single_local c e s) as K. apply keeps_bind.
  - revert K. unfold keeps. destruct (state_of _); [|auto]. intros [K _]. auto.
  - intros s1 E. rewrite <- E. apply IH.
Qed.
Lemma run_local c es : forall s, keeps (fun s' => p_local s' = p_local s \/ (pc_local c = true /\ exists e, In e es /\ e_child e = Some (p_local s'))) (pio_run c es s).
Proof.
  induction es as [|e es IH]; intros s; [left; reflexivity|]. cbn [pio_run]. pose proof (step_single_local c e s) as K. destruct (pio_step c e s) as [s1|s1|s1|]; cbn [pbind keeps state_of] in *; [| | |exact I].
  - specialize (IH s1). unfold keeps in *. destruct (state_of _) as [s2|]; [|exact I]. cbn [state_of] in K.
    destruct IH as [IH|[E (e' & I1 & I2)]].
    + destruct K as [_ [K|(K1 & K2 & K3)]]; [left; congruence|right]. split; [exact K1|]. exists e. split; [now left|congruence].
    + right. split; [exact E|]. exists e'. split; [now right|exact I2].
  - unfold keeps, state_of in *. destruct K as [_ [K|(K1 & K2 & K3)]]; [auto|right]. split; [exact K1|]. exists e. split; [now left|exact K3].
  - unfold keeps, state_of in *. destruct K as [_ [K|(K1 & K2 & K3)]]; [auto|right]. split; [exact K1|]. exists e. split; [now left|exact K3].
Qed.

(** ** How the loop is left *)
Lemma transfers_not_done c e s s' : pbind (pio_remote c e s) (fun s => pbind (pio_stdout c e s) (fun s => pio_stderr c e s)) <> PDone s'.
Proof.
  assert (H3 : forall s s', pio_stderr c e s <> PDone s').
  { clear. intros s s'. unfold pio_stderr. destruct (_ && _); [destruct (handle_input_v2 _ _ _ _ _ _) as [[] t]; cbv zeta|]; discriminate. }
  assert (H2 : forall s s', pio_stdout c e s <> PDone s').
  { clear. intros s s'. unfold pio_stdout. destruct (_ || _); [destruct (handle_input_v2 _ _ _ _ _ _) as [[] t]; cbv zeta; try destruct (_ && _)|]; discriminate. }
  assert (H1 : pio_remote c e s <> PDone s').
  { unfold pio_remote. destruct (handle_remote_data_v2 _ _ _ _ _) as [[[] r]|]; discriminate. }
  destruct (pio_remote c e s) as [s1|s1|s1|]; cbn [pbind]; try assumption; try discriminate.
  specialize (H2 s1 s'). destruct (pio_stdout c e s1); cbn [pbind]; try assumption; try discriminate. apply H3.
Qed.
Lemma step_done c e s s' : pio_step c e s = PDone s' ->
  all_closed s' = true \/ rx_in (p_rx s') = [] /\ rx_buf (p_rx s') = [] \/ e_poll e = PollErr.
Proof.
  unfold pio_step. cbv zeta. set (s1 := pio_child c e s). destruct (pio_all_done c e s1) as [o|] eqn:Ed.
  - intros ->. left. unfold pio_all_done in Ed. destruct (all_closed s1) eqn:Ea; [|discriminate]. destruct (service c).
    + destruct (_ || _); [|discriminate]. destruct (e_code e); [destruct (p_dead s1)|..]; try discriminate. injection Ed as <-. exact Ea.
    + destruct (_ && _); [|discriminate]. injection Ed as <-. exact Ea.
  - destruct (negb (e_open e) && _ && _) eqn:E.
    + intros H; injection H as <-. right. left. apply andb_true_iff in E as [E E3]. apply andb_true_iff in E as [_ E2].
      apply Nat.eqb_eq, length_zero_iff_nil in E2. apply Nat.eqb_eq, length_zero_iff_nil in E3. auto.
    + destruct (e_poll e); auto; [|discriminate]. destruct (negb (e_wait e)); [discriminate|]. intros H. now apply transfers_not_done in H.
Qed.
Lemma run_done c es : forall s s', pio_run c es s = PDone s' ->
  all_closed s' = true \/ rx_in (p_rx s') = [] /\ rx_buf (p_rx s') = [] \/ ~ no_poll_error es.
Proof.
  induction es as [|e es IH]; intros s s'; [discriminate|]. cbn [pio_run].
  destruct (pio_step c e s) as [s1|s1|s1|] eqn:E; cbn [pbind]; try discriminate.
  - intros H. destruct (IH _ _ H) as [X|[X|X]]; auto. right. right. intros Y. inversion Y. contradiction.
  - intros H. injection H as <-. destruct (step_done _ _ _ _ E) as [X|[X|X]]; auto. right. right. intros Y. now inversion Y.
Qed.

(** ** What one end has sent: the messages of a live connection *)
Definition is_exit (z : Z) (ms : list message) : Prop := ms = [(MSG_DATA_EXIT_CODE, enc32 z)].
Lemma stream_of_exit z ms : is_exit z ms -> stream_of ms = [] /\ payload MSG_DATA_STDOUT ms = [] /\ payload MSG_DATA_STDIN ms = [] /\ payload MSG_DATA_STDERR ms = [].
Proof. intros ->. repeat split; reflexivity. Qed.

Lemma Out_dead k c cons ms s : Out k c cons ms s -> p_dead s = false ->
  p_vout s = wire ms /\ legit k (xorb (k_single k) (p_single s)) (payload (out_type c) ms ++ p_prefix s ++ p_src s) /\
  payload MSG_DATA_STDERR ms ++ p_errsrc s = k_err k.
Proof.
  intros (tail & lost & elost & total & H) Hd. destruct (o_alive _ _ _ _ _ _ _ _ _ H Hd) as (-> & -> & ->).
  split; [rewrite (o_out _ _ _ _ _ _ _ _ _ H), app_nil_r; reflexivity|]. split; [|exact (o_err _ _ _ _ _ _ _ _ _ H)].
  rewrite (o_data _ _ _ _ _ _ _ _ _ H : payload (out_type c) ms ++ p_prefix s ++ p_src s = total). exact (o_legit _ _ _ _ _ _ _ _ _ H).
Qed.

(** what the local process got *)
Lemma got p ok input es o s q1 q2 : sensible p -> en_run p ok input es = o -> state_of o = Some s ->
  (q1 = true -> Forall (quiet1 (en_cfg p)) es) -> (q2 = true -> Forall (quiet2 (en_cfg p)) es) ->
  exists cons m, Rx (pc_rx (en_cfg p)) (en_buf p) (-1) (en_base p) [] cons m (p_rx s) /\ Forall (sendable (c_max (pc_rx (en_cfg p)))) cons /\
    is_prefix (wire cons) input /\
    (o = PGo s \/ o = PDone s -> is_open m = p_stdin s /\ input = wire cons ++ rx_in (p_rx s) /\ (q1 = true -> m <> MBroken)).
Proof.
  intros Hs Ho Hst Hq1 Hq2. apply (sensible_wf p input) in Hs. rewrite en_run_start in Ho.
  pose proof (pio_run_inv _ _ q1 q2 es Hs Hq1 Hq2 _ (pio_start_inv _ _ ok q1 q2 Hs)) as HO. rewrite Ho in HO.
  assert (A : forall s, Inv (kt p input) (en_cfg p) q1 q2 s -> exists cons m, Rx (pc_rx (en_cfg p)) (en_buf p) (-1) (en_base p) [] cons m (p_rx s) /\ Forall (sendable (c_max (pc_rx (en_cfg p)))) cons /\
    is_prefix (wire cons) input /\ is_open m = p_stdin s /\ input = wire cons ++ rx_in (p_rx s) /\ (q1 = true -> m <> MBroken)).
  { intros s0 (cons & m & ms & (R1 & R2 & R3) & Hin & _ & Q1 & _). exists cons, m. split; [exact R1|]. split; [exact R2|]. split; [eexists; exact Hin|]. auto. }
  assert (B : forall s, Inv (kt p input) (en_cfg p) q1 q2 s -> exists cons m, Rx (pc_rx (en_cfg p)) (en_buf p) (-1) (en_base p) [] cons m (p_rx s) /\ Forall (sendable (c_max (pc_rx (en_cfg p)))) cons /\
    is_prefix (wire cons) input /\ (o = PGo s \/ o = PDone s -> is_open m = p_stdin s /\ input = wire cons ++ rx_in (p_rx s) /\ (q1 = true -> m <> MBroken))).
  { intros s0 I0. destruct (A _ I0) as (cons & m & R1 & R2 & R3 & R4). exists cons, m. auto. }
  destruct o as [s'|s'|s'|]; cbn [state_of Outcome] in *; try discriminate; injection Hst as ->.
  - apply B, HO.
  - destruct HO as [HO|(s0 & HO & _ & _ & _ & _ & ->)]; [apply B, HO|]. destruct (A _ HO) as (cons & m & R1 & R2 & R3 & R4). exists cons, m.
    split; [exact R1|]. split; [exact R2|]. split; [exact R3|]. intros _. exact R4.
  - destruct HO as [(cons & m & ms & R1 & R2 & R3 & _)|(s0 & (cons & m & ms & R1 & R2 & R3 & _) & _ & _ & _ & Hrx & _)].
    + exists cons, m. split; [exact R1|]. split; [exact R2|]. split; [exact R3|]. intros [X|X]; discriminate.
    + exists cons, m. split; [rewrite Hrx; exact R1|]. split; [exact R2|]. split; [exact R3|]. intros [X|X]; discriminate.
Qed.

(** what was sent over a live connection *)
Lemma sent p ok input es o s q1 q2 : sensible p -> en_run p ok input es = o -> state_of o = Some s -> p_dead s = false ->
  (q1 = true -> Forall (quiet1 (en_cfg p)) es) -> (q2 = true -> Forall (quiet2 (en_cfg p)) es) ->
  exists cons m data ex s0, Out (kt p input) (en_cfg p) cons data s0 /\ is_prefix (wire cons) input /\ Forall (sendable (c_max (pc_rx (en_cfg p)))) cons /\
    Rx (pc_rx (en_cfg p)) (en_buf p) (-1) (en_base p) [] cons m (p_rx s) /\
    p_dead s0 = false /\ p_single s0 = p_single s /\ p_stdin s0 = p_stdin s /\ p_stdout s0 = p_stdout s /\ p_stderr s0 = p_stderr s /\ p_local s0 = p_local s /\ p_rx s0 = p_rx s /\
    p_vout s = wire (data ++ ex) /\
    (ex = [] \/
     service (en_cfg p) = true /\ o = PDone s /\ all_closed s = true /\
     exists z, ex = [(MSG_DATA_EXIT_CODE, enc32 z)] /\ (if pc_local (en_cfg p) then z = p_local s /\ (0 <= z)%Z else z = 0%Z)) /\
    (q2 = true -> o = PGo s \/ o = PDone s -> p_single s = en_single p /\ (service (en_cfg p) = true -> p_stdout s = false -> p_src s0 = []) /\ (p_stderr s = false -> p_errsrc s0 = [])).
Proof.
  intros Hs Ho Hst Hd Hq1 Hq2. apply (sensible_wf p input) in Hs. rewrite en_run_start in Ho.
  pose proof (pio_run_inv _ _ q1 q2 es Hs Hq1 Hq2 _ (pio_start_inv _ _ ok q1 q2 Hs)) as HO. rewrite Ho in HO.
  assert (A : forall s, p_dead s = false -> Inv (kt p input) (en_cfg p) q1 q2 s ->
    exists cons m data, Out (kt p input) (en_cfg p) cons data s /\ is_prefix (wire cons) input /\ Forall (sendable (c_max (pc_rx (en_cfg p)))) cons /\
      Rx (pc_rx (en_cfg p)) (en_buf p) (-1) (en_base p) [] cons m (p_rx s) /\ p_vout s = wire data /\
      (q2 = true -> p_single s = en_single p /\ (service (en_cfg p) = true -> p_stdout s = false -> p_src s = []) /\ (p_stderr s = false -> p_errsrc s = []))).
  { intros s0 Hd0 (cons & m & ms & (R1 & R2 & R3) & Hin & HO0 & Q1 & Q2 & _). exists cons, m, ms. split; [exact HO0|]. split; [eexists; exact Hin|]. split; [exact R2|].
    split; [exact R1|]. split; [apply (Out_dead _ _ _ _ _ HO0 Hd0)|]. exact Q2. }
  assert (B : Inv (kt p input) (en_cfg p) q1 q2 s -> 
    exists cons m data ex s0, Out (kt p input) (en_cfg p) cons data s0 /\ is_prefix (wire cons) input /\ Forall (sendable (c_max (pc_rx (en_cfg p)))) cons /\
    Rx (pc_rx (en_cfg p)) (en_buf p) (-1) (en_base p) [] cons m (p_rx s) /\
    p_dead s0 = false /\ p_single s0 = p_single s /\ p_stdin s0 = p_stdin s /\ p_stdout s0 = p_stdout s /\ p_stderr s0 = p_stderr s /\ p_local s0 = p_local s /\ p_rx s0 = p_rx s /\
    p_vout s = wire (data ++ ex) /\
    (ex = [] \/
     service (en_cfg p) = true /\ o = PDone s /\ all_closed s = true /\
     exists z, ex = [(MSG_DATA_EXIT_CODE, enc32 z)] /\ (if pc_local (en_cfg p) then z = p_local s /\ (0 <= z)%Z else z = 0%Z)) /\
    (q2 = true -> o = PGo s \/ o = PDone s -> p_single s = en_single p /\ (service (en_cfg p) = true -> p_stdout s = false -> p_src s0 = []) /\ (p_stderr s = false -> p_errsrc s0 = []))).
  { intros I0. destruct (A s Hd I0) as (cons & m & data & A1 & A2 & A3 & A4 & A5 & A6). exists cons, m, data, [], s. rewrite app_nil_r.
    split; [exact A1|]. split; [exact A2|]. split; [exact A3|]. split; [exact A4|]. split; [exact Hd|]. do 6 (split; [reflexivity|]). split; [exact A5|]. split; [left; reflexivity|]. intros X _. apply A6, X. }
  destruct o as [s'|s'|s'|]; cbn [state_of Outcome] in *; try discriminate; injection Hst as ->.
  - apply B, HO.
  - destruct HO as [HO|(s0 & HO & E1 & E2 & E3 & E4 & E5)]; [apply B, HO|]. destruct (A s0 E3 HO) as (cons & m & data & A1 & A2 & A3 & A4 & A5 & A6).
    exists cons, m, data, [(MSG_DATA_EXIT_CODE, enc32 (if pc_local (en_cfg p) then p_local s0 else 0%Z))], s0.
    assert (F : p_rx s0 = p_rx s /\ p_single s0 = p_single s /\ p_stdin s0 = p_stdin s /\ p_stdout s0 = p_stdout s /\ p_stderr s0 = p_stderr s /\ p_local s0 = p_local s) by (rewrite E5; repeat split).
    destruct F as (F1 & F2 & F3 & F4 & F5 & F6).
    split; [exact A1|]. split; [exact A2|]. split; [exact A3|]. split; [rewrite <- F1; exact A4|]. split; [exact E3|]. split; [exact F2|]. split; [exact F3|]. split; [exact F4|]. split; [exact F5|].
    split; [exact F6|]. split; [exact F1|]. split.
    + rewrite E5. cbn [p_send p_vout]. rewrite E3. cbn [negb andb]. rewrite A5, wire_app. unfold wire at 3. cbn [map concat frame fst snd]. rewrite app_nil_r. reflexivity.
    + split.
      * right. split; [exact E1|]. split; [reflexivity|]. split; [rewrite E5; exact E2|]. eexists. split; [reflexivity|]. destruct (pc_local (en_cfg p)); [rewrite F6 in *; split; [reflexivity|auto]|reflexivity].
      * intros X _. destruct (A6 X) as (Y1 & Y2 & Y3). rewrite <- F2, <- F4, <- F5. auto.
  - destruct HO as [(cons & m & ms & R1 & R2 & R3 & HO)|(s0 & _ & _ & _ & X & _)]; [|congruence].
    exists cons, m, ms, [], s. rewrite app_nil_r. split; [exact HO|]. split; [exact R3|]. split; [exact R2|]. split; [exact R1|]. split; [exact Hd|]. do 6 (split; [reflexivity|]).
    split; [apply (Out_dead _ _ _ _ _ HO Hd)|]. split; [left; reflexivity|]. intros _ [X|X]; discriminate.
Qed.

(** ** Reading what was sent *)
Lemma wire_prefix max a b : (Z.of_nat max < 4294967296)%Z -> Forall (sendable max) a -> Forall (sendable max) b -> is_prefix (wire a) (wire b) -> exists rest, b = a ++ rest.
Proof.
  intros Hm Ha Hb (x & H). destruct (Nat.le_ge_cases (length a) (length b)) as [L|L].
  - symmetry in H. rewrite <- (app_nil_r (wire b)) in H. destruct (wire_inj max a Hm b x [] Ha Hb H L) as (b' & E & _). eauto.
  - rewrite <- (app_nil_r (wire b)) in H. destruct (wire_inj max b Hm a [] x Hb Ha H L) as (a' & E & E2).
    destruct a' as [|t a']; [|destruct t; discriminate E2]. exists []. rewrite app_nil_r in *. symmetry. exact E.
Qed.
Lemma exit_in z ms : (last_exit z ms <> z) -> exists p, In (MSG_DATA_EXIT_CODE, p) ms.
Proof.
  unfold last_exit. revert z. induction ms as [|[t p] ms IH]; intros z H; [cbn in H; congruence|]. cbn [fold_left fst snd] in H.
  destruct (Z.eqb_spec t MSG_DATA_EXIT_CODE) as [->|]; [exists p; now left|]. destruct (IH _ H) as (q & Hq). exists q. now right.
Qed.
Lemma no_exit_data c ms : Forall (fun m => (fst m = out_type c \/ fst m = MSG_DATA_STDERR /\ service c = true) /\ length (snd m) <= c_max (pc_rx c)) ms -> no_exit ms.
Proof.
  intros H p Hp. rewrite Forall_forall in H. destruct (H _ Hp) as [[E|[E _]] _]; cbn [fst] in E; [|discriminate]. revert E. unfold out_type. destruct (service c); discriminate.
Qed.
Lemma app_last {A} (a b : list A) x y : a ++ y = b ++ [x] -> y <> [] -> exists y', y = y' ++ [x] /\ b = a ++ y'.
Proof.
  intros H Hy. destruct (exists_last Hy) as (y' & z & ->). rewrite app_assoc in H. apply app_inj_tail in H as [H1 H2]. subst z. eauto.
Qed.
(** the messages before which an exit code was read are all of them *)
Lemma exit_is_last data z cons rest : no_exit data -> (exists p, In (MSG_DATA_EXIT_CODE, p) cons) -> data ++ [(MSG_DATA_EXIT_CODE, enc32 z)] = cons ++ rest -> rest = [].
Proof.
  intros Hn (p & Hp) E. destruct rest as [|m rest]; [reflexivity|]. exfalso. symmetry in E.
  destruct (app_last _ _ _ _ E) as (y' & _ & ->); [discriminate|]. apply (Hn p). apply in_or_app. now left.
Qed.
Lemma last_exit_data ms z : no_exit ms -> last_exit z ms = z.
Proof.
  intros H. unfold last_exit. revert z. induction ms as [|[t p] ms IH]; intros z; [reflexivity|]. cbn [fold_left fst snd].
  destruct (Z.eqb_spec t MSG_DATA_EXIT_CODE) as [->|]; [exfalso; apply (H p); now left|]. apply IH. intros q Hq. apply (H q). now right.
Qed.

(** ** abort() is not reached *)
Lemma step_no_abort k c e s : wf k c -> Inv k c false false s -> (0 <= k_base k)%Z ->
  (k_base k + 2 * Z.of_nat (Nat.max (length (k_buf k)) (c_max (pc_rx c))) <= BUFFER_LIMIT)%Z ->
  Forall (fun st => no_zero (r_writes st)) (e_remote e) -> pio_step c e s <> PAbort.
Proof.
  intros Hwf HI Hb Hl Hz. pose proof Hwf as (W1 & W2 & W3 & W4 & W5 & W6 & W7).
  unfold pio_step. cbv zeta. assert (H1 : Inv k c false false (pio_child c e s)) by (apply Inv_child; auto; discriminate).
  set (s1 := pio_child c e s) in *. clearbody s1. destruct (pio_all_done c e s1) as [o|] eqn:Ed.
  { unfold pio_all_done in Ed. destruct (all_closed s1); [|discriminate]. destruct (service c).
    - destruct (_ || _); [|discriminate]. destruct (e_code e); [destruct (p_dead s1)|..]; injection Ed as <-; discriminate.
    - destruct (_ && _); [|discriminate]. injection Ed as <-. discriminate. }
  destruct (_ && _); [discriminate|]. 
  assert (H2 : Inv k c false false (pio_usr1 c e s1)) by (apply Inv_usr1; auto; discriminate).
  set (s2 := pio_usr1 c e s1) in *. clearbody s2. destruct (e_poll e); [|discriminate|discriminate].
  destruct (negb (e_wait e)); [discriminate|].
  match goal with |- context [pio_remote c e ?x] => set (s3 := x) end.
  assert (H3 : Inv k c false false s3).
  { unfold s3. destruct (_ && _); [apply Inv_close_stdin; auto; discriminate|exact H2]. }
  clearbody s3. destruct (pio_remote c e s3) as [s4|s4|s4|] eqn:E; cbn [pbind]; [| discriminate | discriminate |].
  - unfold pio_stdout. destruct (_ || _).
    + destruct (handle_input_v2 _ _ _ _ _ _) as [[] t]; cbv zeta; try destruct (_ && _); cbn [pbind]; try discriminate;
        unfold pio_stderr; (destruct (_ && _); [destruct (handle_input_v2 _ _ _ _ _ _) as [[] t']; cbv zeta|]); discriminate.
    + cbn [pbind]. unfold pio_stderr; (destruct (_ && _); [destruct (handle_input_v2 _ _ _ _ _ _) as [[] t']; cbv zeta|]); discriminate.
  - exfalso. destruct H3 as (cons & m & ms & (R1 & R2 & R3) & _). unfold pio_remote in E. rewrite <- R3 in E.
    pose proof (handle_remote_data_total (pc_rx c) (k_buf k) (-1) (k_base k) [] (e_flush e) (e_remote e) cons m (p_rx s3) W2 R1 Hb Hl Hz) as X.
    destruct (handle_remote_data_v2 _ _ _ _ _) as [[[] r]|]; congruence.
Qed.
Lemma run_no_abort k c es : wf k c -> (0 <= k_base k)%Z ->
  (k_base k + 2 * Z.of_nat (Nat.max (length (k_buf k)) (c_max (pc_rx c))) <= BUFFER_LIMIT)%Z ->
  no_zero_writes es -> forall s, Inv k c false false s -> pio_run c es s <> PAbort.
Proof.
  intros Hwf Hb Hl. induction 1 as [|e es He Hes IH]; intros s HI; [discriminate|]. cbn [pio_run].
  pose proof (step_no_abort k c e s Hwf HI Hb Hl He) as X. pose proof (pio_step_inv k c false false e s Hwf HI ltac:(discriminate) ltac:(discriminate)) as Y.
  destruct (pio_step c e s) as [s'|s'|s'|]; cbn [pbind]; [apply IH, Y|discriminate|discriminate|congruence].
Qed.
