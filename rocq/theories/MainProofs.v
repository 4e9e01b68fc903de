(** Proofs about the main loop of the agent *)
From Coq Require Import String Ascii List Bool Arith ZArith Lia Permutation.
From Verif Require Import Base Sanitize DaemonAgent Exec Toml Agent SpecMain.
Import ListNotations.
Open Scope string_scope.
Open Scope list_scope.
Open Scope Z_scope.

(** ** Tables *)
Lemma MAX_FDS_256 : MAX_FDS = 256%nat.
Proof. reflexivity. Qed.
Fixpoint used {A} (l : list (option A)) : list A :=
  match l with [] => [] | Some a :: l' => a :: used l' | None :: l' => used l' end.

Lemma put_used {A} (l : list (option A)) i x : first_free l = Some i -> Permutation (used (put i (Some x) l)) (x :: used l).
Proof.
  revert i; induction l as [|[a|] l IH]; intros i; cbn [first_free].
  - discriminate.
  - destruct (first_free l) as [j|]; cbn [option_map]; [|discriminate]. injection 1 as <-.
    cbn [put used]. rewrite (IH j eq_refl). apply perm_swap.
  - injection 1 as <-. cbn [put used]. reflexivity.
Qed.
Lemma put_length {A} i (x : A) l : List.length (put i x l) = List.length l.
Proof. revert i; induction l as [|a l IH]; intros [|i]; cbn; auto. Qed.
Lemma full_used {A} (l : list (option A)) : first_free l = None -> List.length (used l) = List.length l.
Proof.
  induction l as [|[a|] l IH]; cbn [first_free]; auto; [|discriminate].
  destruct (first_free l); [discriminate|]. intros _. cbn. f_equal. auto.
Qed.
Lemma used_repeat {A} n : used (repeat (@None A) n) = [].
Proof. induction n; auto. Qed.
Lemma used_cleared {A} (l : list (option A)) : used (map (fun _ => @None A) l) = [].
Proof. induction l; auto. Qed.

(** ** What is carried out *)
Lemma carried_out_app a b : carried_out (a ++ b) = carried_out a ++ carried_out b.
Proof. induction a as [|[] a IH]; cbn [carried_out app]; rewrite ?IH; auto. Qed.
Lemma wait_started_app a b w : wait_started (a ++ b) w = wait_started b (wait_started a w).
Proof. revert w; induction a as [|[] a IH]; intros w; cbn [wait_started app]; auto. Qed.

Lemma register_out pid fd d p conns : snd (register pid fd d p conns) = [] \/ snd (register pid fd d p conns) = [NoSlot d p].
Proof. unfold register. destruct (first_free conns); cbn; auto. Qed.

Lemma exec_do_out en d q p conns :
  let out := snd (exec_do en d q p conns) in
  carried_out out = [(q, p)] /\ forall w, wait_started out w = w.
Proof.
  unfold exec_do.
  match goal with |- context [match ?x with Some _ => _ | None => _ end] => destruct x eqn:E end;
  [destruct p as [p'|]|].
  - pose proof (register_out (-1) z (q_domain q) (q_port q) conns) as R.
    destruct (register _ _ _ _ _) as [c o]. cbn [snd] in *. destruct R as [-> | ->]; split; reflexivity.
  - discriminate.
  - pose proof (register_out (d_pid d) (-1) (q_domain q) (q_port q) conns) as R.
    destruct (register _ _ _ _ _) as [c o]. cbn [snd] in *. destruct R as [-> | ->]; split; reflexivity.
Qed.

Lemma run_waiting_out en envs ws : forall i conns,
  let out := snd (run_waiting en envs i ws conns) in
  carried_out out = used ws /\ forall w, wait_started out w = w.
Proof.
  induction ws as [|[[q p]|] ws IH]; intros i conns; cbn [run_waiting].
  - split; reflexivity.
  - pose proof (exec_do_out en (envs i) q p conns) as [H1 H2].
    destruct (exec_do _ _ _ _ _) as [c1 o1]. specialize (IH (S i) c1).
    destruct (run_waiting _ _ _ _ _) as [c2 o2]. cbn [snd fst used] in *. destruct IH as [I1 I2].
    rewrite carried_out_app, H1, I1. split; [reflexivity|]. intros w. rewrite wait_started_app, H2. apply I2.
  - apply IH.
Qed.

Lemma release_pid_out pid conns :
  let out := snd (release_pid pid conns) in carried_out out = [] /\ forall w, wait_started out w = w.
Proof.
  induction conns as [|[c|] conns IH]; cbn [release_pid].
  - split; reflexivity.
  - destruct (c_pid c =? pid); [split; reflexivity|].
    destruct (release_pid pid conns); exact IH.
  - destruct (release_pid pid conns); exact IH.
Qed.
Lemma poll_conns_out ready conns :
  let out := snd (poll_conns ready conns) in carried_out out = [] /\ forall w, wait_started out w = w.
Proof.
  induction conns as [|[c|] conns IH]; cbn [poll_conns].
  - split; reflexivity.
  - destruct (poll_conns ready conns). destruct (_ && _); exact IH.
  - destruct (poll_conns ready conns); exact IH.
Qed.
Lemma service_connect_out i d p b conns :
  let out := snd (service_connect i d p b conns) in carried_out out = [] /\ forall w, wait_started out w = w.
Proof.
  unfold service_connect. destruct (scan_socket i) as [fd| |]; [|split; reflexivity..].
  destruct b; [split; reflexivity|].
  pose proof (register_out (-1) fd d p conns) as R.
  destruct (register _ _ _ _ _) as [c o]. cbn [snd] in *. destruct R as [-> | ->]; split; reflexivity.
Qed.
Lemma service_refused_out len body :
  let out := service_refused len body in carried_out out = [] /\ forall w, wait_started out w = w.
Proof. unfold service_refused. destruct (negb _); [split; reflexivity|]. destruct (scan_socket _); split; reflexivity. Qed.
Lemma trigger_out fd type len data :
  let out := handle_trigger_io fd type len data in carried_out out = [] /\ forall w, wait_started out w = w.
Proof. unfold handle_trigger_io. destruct (_ || _); [split; reflexivity|]. destruct (_ <? _); split; reflexivity. Qed.

(** ** Exactly once *)
Lemma exec_init_spec en f forked d q s :
  let r := exec_init en f forked d q s in
  (a_wait s = None -> used (a_waiting s) = []) ->
  (carried_out (snd r) = [(q, prepare f (q_cmdline q))] /\ a_waiting (fst r) = a_waiting s \/
   carried_out (snd r) = [] /\ Permutation (used (a_waiting (fst r))) ((q, prepare f (q_cmdline q)) :: used (a_waiting s)) /\
     a_wait (fst r) <> None /\ may_wait (prepare f (q_cmdline q))) /\
  a_wait (fst r) = wait_started (snd r) (a_wait s) /\
  (a_wait (fst r) = None -> used (a_waiting (fst r)) = []).
Proof.
  cbv zeta. unfold exec_init. remember (prepare f (q_cmdline q)) as p eqn:Ep. clear Ep. cbv zeta.
  assert (D : forall s out, carried_out out = [] ->
    let r := (let (s', out') := set_conns s (exec_do en d q p (a_conns s)) in (s', out ++ out')) in
    carried_out (snd r) = [(q, p)] /\ a_waiting (fst r) = a_waiting s /\ a_wait (fst r) = a_wait s /\
    forall w, wait_started (snd r) w = wait_started out w).
  { intros s0 out Ho. unfold set_conns. pose proof (exec_do_out en d q p (a_conns s0)) as [H1 H2].
    destruct (exec_do _ _ _ _ _) as [c o]. cbn [fst snd] in *.
    rewrite carried_out_app, Ho, H1. repeat split; auto. intros w. rewrite wait_started_app. apply H2. }
  intros Hnone.
  destruct p as [c|].
  2:{ destruct (D s [] eq_refl) as (D1 & D2 & D3 & D4). split; [left; auto|]. rewrite D3, D4, D2. split; auto. }
  match goal with |- context [if ?x then _ else _] => destruct x eqn:E end.
  2:{ destruct (D s [] eq_refl) as (D1 & D2 & D3 & D4). split; [left; auto|]. rewrite D3, D4, D2. split; auto. }
  assert (M : may_wait (Some c)).
  { apply andb_prop in E as [E E3]. apply andb_prop in E as [E1 E2]. exists c. repeat split; auto.
    - destruct (pc_descriptor (pr_cmd c)); congruence.
    - now destruct (pc_nogui (pr_cmd c)). }
  unfold wait_for_session_maybe. destruct (a_wait s) as [w|] eqn:Ew; [|destruct forked as [pid|]].
  - cbn [a_waiting]. destruct (first_free (a_waiting s)) as [i|] eqn:Ei.
    + cbn [fst snd a_waiting a_wait carried_out wait_started]. split; [right|].
      * repeat split; auto; [now apply put_used|congruence].
      * split; [auto|]. rewrite Ew. discriminate.
    + destruct (D s [] eq_refl) as (D1 & D2 & D3 & D4). split; [left; auto|]. rewrite D3, D4, D2, Ew. split; [reflexivity|discriminate].
  - cbn [a_waiting]. destruct (first_free (a_waiting s)) as [i|] eqn:Ei.
    + cbn [fst snd a_waiting a_wait carried_out wait_started]. split; [right|].
      * repeat split; auto; [now apply put_used|congruence].
      * split; [auto|]. discriminate.
    + destruct (D (mkAgent (a_conns s) (a_waiting s) (Some pid)) [WaitStarted pid (pr_user c) (pc_source (pr_cmd c))] eq_refl) as (D1 & D2 & D3 & D4).
      split; [left; auto|]. rewrite D3, D4. cbn [a_wait wait_started]. split; [reflexivity|discriminate].
  - destruct (D s [] eq_refl) as (D1 & D2 & D3 & D4). split; [left; auto|]. rewrite D3, D4, D2, Ew. split; auto.
Qed.

Lemma gt_not_le a b : (a >? b) = negb (a <=? b).
Proof. rewrite Z.gtb_ltb, Z.ltb_antisym. reflexivity. Qed.

Lemma step_spec en ev s s' out : step en ev s = (s', out) -> dies out = false ->
  (a_wait s = None -> used (a_waiting s) = []) ->
  Permutation (used (a_waiting s) ++ received ev) (carried_out out ++ used (a_waiting s')) /\
  a_wait s' = wait_after ev out (a_wait s) /\
  (a_wait s' = None -> used (a_waiting s') = []).
Proof.
  intros H Hd Hn. destruct ev as [e type len body|pid envs|ready|fd type len data]; cbn [step] in H.
  - (* Message *)
    assert (W : wait_after (Message e type len body) out (a_wait s) = wait_started out (a_wait s)) by reflexivity.
    rewrite W. clear W. cbn [received].
    unfold handle_server_cmd in H. unfold MSG_EXEC_CMDLINE, MSG_JUST_EXEC, MSG_SERVICE_CONNECT, MSG_SERVICE_REFUSED in H.
    destruct ((type =? 512) || (type =? 513)) eqn:Et.
    + cbn [orb] in H. destruct ((len <=? 8) || (len >? 2147483647)) eqn:El.
      { injection H as <- <-. discriminate Hd. }
      apply orb_false_elim in El as [E1 E2].
      assert (T : type =? 514 = false) by lia. rewrite T in H.
      assert (L : ((true && (8 <? len)) && (len <? 2147483648))%bool = true) by lia. rewrite L.
      pose proof (exec_init_spec en (m_files e) (m_forked e) (m_do e) (message_request type len body) s Hn) as X.
      change (mkReq type _ _ _) with (message_request type len body) in H.
      rewrite H in X. cbn [fst snd] in X. destruct X as ([[C Wt]|(C & P & _ & _)] & W & N).
      * split; [|auto]. rewrite C, Wt. apply Permutation_app_comm.
      * split; [|auto]. rewrite C. cbn [app]. rewrite P. apply Permutation_app_comm.
    + assert (L : ((false && (8 <? len)) && (len <? 2147483648))%bool = false) by reflexivity. rewrite L.
      rewrite app_nil_r. cbn [orb] in H. destruct (type =? 514) eqn:T.
      * destruct ((len <=? 8) || (len >? 2147483647)) eqn:El.
        { injection H as <- <-. discriminate Hd. }
        unfold set_conns in H. pose proof (service_connect_out (cstr (stake (Z.to_nat (len - 9)) (sdrop 8 body))) (u32 body) (u32 (sdrop 4 body)) (m_ebadf e) (a_conns s)) as [C W].
        destruct (service_connect _ _ _ _ _) as [c o]. cbn [fst snd] in *. injection H as <- <-.
        cbn [a_waiting a_wait]. rewrite C, W. auto.
      * destruct (type =? 515).
        -- injection H as <- <-. pose proof (service_refused_out len body) as [C W]. rewrite C, W. auto.
        -- injection H as <- <-. discriminate Hd.
  - (* Reaped *)
    cbn [received]. rewrite app_nil_r. unfold reap in H. unfold wait_after.
    destruct (a_wait s) as [w|] eqn:Ew.
    + destruct (pid =? w) eqn:Ep.
      * pose proof (run_waiting_out en envs (a_waiting s) 0 (a_conns s)) as [C W].
        destruct (run_waiting _ _ _ _ _) as [c o]. cbn [snd] in *. injection H as <- <-.
        cbn [a_waiting a_wait]. rewrite used_cleared, app_nil_r, C, W. auto.
      * unfold set_conns in H. pose proof (release_pid_out pid (a_conns s)) as [C W].
        destruct (release_pid _ _) as [c o]. cbn [fst snd] in *. injection H as <- <-.
        cbn [a_waiting a_wait]. rewrite C, W, Ew. cbn [app]. split; [auto|]. split; [auto|discriminate].
    + unfold set_conns in H. pose proof (release_pid_out pid (a_conns s)) as [C W].
      destruct (release_pid _ _) as [c o]. cbn [fst snd] in *. injection H as <- <-.
      cbn [a_waiting a_wait]. rewrite C, W, Ew. cbn [app]. auto.
  - cbn [received]. rewrite app_nil_r. unfold wait_after. unfold set_conns in H.
    pose proof (poll_conns_out ready (a_conns s)) as [C W].
    destruct (poll_conns _ _) as [c o]. cbn [fst snd] in *. injection H as <- <-.
    cbn [a_waiting a_wait]. rewrite C, W. cbn [app]. auto.
  - cbn [received]. rewrite app_nil_r. unfold wait_after. injection H as <- <-.
    pose proof (trigger_out fd type len data) as [C W]. rewrite C, W. cbn [app]. auto.
Qed.

Lemma flat_map_snoc {A B} (f : A -> list B) l x : flat_map f (l ++ [x]) = flat_map f l ++ f x.
Proof. rewrite flat_map_app. cbn. now rewrite app_nil_r. Qed.

Lemma history_inv en h s : history en h s ->
  Permutation (all_received h) (all_carried_out h ++ used (a_waiting s)) /\
  a_wait s = waiting_process h /\ (a_wait s = None -> used (a_waiting s) = []).
Proof.
  induction 1 as [|h s ev s' out H IH Hs Hd].
  - split; [|split]; [|reflexivity|].
    + unfold all_received, all_carried_out, start. cbn [flat_map a_waiting app]. rewrite used_repeat. reflexivity.
    + intros _. unfold start. cbn [a_waiting]. apply used_repeat.
  - destruct IH as (P & W & N). destruct (step_spec _ _ _ _ _ Hs Hd N) as (P1 & W1 & N1).
    split; [|split; [|exact N1]].
    + unfold all_received, all_carried_out in *. rewrite !flat_map_snoc. cbn [fst snd].
      rewrite P, <- !app_assoc. now rewrite P1.
    + rewrite W1, W. unfold waiting_process. rewrite fold_left_app. reflexivity.
Qed.

(** ** Connections *)
Lemma perm_filter {A} (f : A -> bool) l l' : Permutation l l' -> Permutation (filter f l) (filter f l').
Proof.
  induction 1; cbn [filter]; auto.
  - destruct (f x); auto.
  - destruct (f x), (f y); auto. apply perm_swap.
  - etransitivity; eassumption.
Qed.
Lemma opened_app a b : opened (a ++ b) = opened a ++ opened b.
Proof. induction a as [|[] a IH]; cbn [opened app]; rewrite ?IH; auto. Qed.
Lemma reported_app a b : reported (a ++ b) = reported a ++ reported b.
Proof. induction a as [|[] a IH]; cbn [reported app]; rewrite ?IH; auto. Qed.

Definition conn_of (c : connection) : conn :=
  mkLive (if c_fd c =? -1 then HProc (c_pid c) else HSock (c_fd c)) (c_domain c) (c_port c).
Definition conns_of (l : list (option connection)) : list conn := map conn_of (used l).
Definition shape (c : connection) : Prop := (c_fd c = -1 /\ c_pid c > 0) \/ (c_fd c >= 0 /\ c_pid c = -1).
Definition oks (l : list conn) : Prop := forall c, In c l -> handle_ok (l_handle c).

(** adding connections to a table that has room for them *)
Definition grows (conns conns' : list (option connection)) (out : list output) : Prop :=
  List.length conns' = List.length conns /\ reported out = [] /\
  (oks (opened out) -> (forall c, In c (used conns) -> shape c) ->
   (List.length (used conns) + List.length (opened out) <= List.length conns)%nat ->
   Permutation (conns_of conns') (conns_of conns ++ opened out) /\
   existsb is_noslot out = false /\ (forall c, In c (used conns') -> shape c) /\
   List.length (used conns') = (List.length (used conns) + List.length (opened out))%nat).

Lemma grows_nil conns out : reported out = [] -> opened out = [] -> existsb is_noslot out = false -> grows conns conns out.
Proof.
  intros H1 H2 H3. split; [auto|split; [auto|]]. intros _ Hs _. rewrite H2, app_nil_r. cbn. repeat split; auto.
Qed.
Lemma grows_trans c1 c2 c3 o1 o2 : grows c1 c2 o1 -> grows c2 c3 o2 -> grows c1 c3 (o1 ++ o2).
Proof.
  intros (L1 & R1 & G1) (L2 & R2 & G2). split; [congruence|]. split; [rewrite reported_app, R1; auto|].
  rewrite opened_app, app_length. intros Ho Hs Hl.
  destruct G1 as (P1 & N1 & S1 & U1); auto; [intros c Hc; apply Ho, in_or_app; auto|lia|].
  destruct G2 as (P2 & N2 & S2 & U2); auto; [intros c Hc; apply Ho, in_or_app; auto|lia|].
  split; [|split; [|split]].
  - rewrite P2, P1. now rewrite app_assoc.
  - rewrite existsb_app, N1, N2. reflexivity.
  - auto.
  - lia.
Qed.

Lemma register_grows pid fd d p conns pre h :
  reported pre = [] -> existsb is_noslot pre = false -> opened pre = [mkLive h d p] ->
  (h = HProc pid /\ fd = -1 \/ h = HSock fd /\ pid = -1) ->
  let r := register pid fd d p conns in grows conns (fst r) (pre ++ snd r).
Proof.
  intros Hr Hn Ho Hh. cbv zeta. unfold register.
  destruct (first_free conns) as [i|] eqn:Ei; cbn [fst snd].
  - rewrite app_nil_r. split; [apply put_length|]. split; [auto|]. rewrite Ho. intros O Sh _.
    specialize (O _ (or_introl eq_refl)). cbn [l_handle] in O.
    pose proof (put_used conns i (mkConn pid fd d p) Ei) as P.
    assert (C : conn_of (mkConn pid fd d p) = mkLive h d p).
    { unfold conn_of. cbn [c_fd c_pid c_domain c_port]. destruct Hh as [[-> ->]|[-> ->]]; [reflexivity|].
      cbn [handle_ok] in O. destruct (fd =? -1) eqn:E; [lia|reflexivity]. }
    split; [|split; [auto|split]].
    + unfold conns_of. rewrite (Permutation_map conn_of P). cbn [map]. rewrite C. apply Permutation_cons_append.
    + intros c Hc. apply (Permutation_in _ P) in Hc as [<-|Hc]; [|auto].
      unfold shape. cbn [c_fd c_pid]. destruct Hh as [[-> ->]|[-> ->]]; cbn [handle_ok] in O; [left|right]; auto.
    + rewrite (Permutation_length P). cbn [List.length]. lia.
  - split; [auto|]. split; [rewrite reported_app, Hr; reflexivity|]. rewrite opened_app, Ho.
    cbn [app opened List.length]. apply full_used in Ei. intros _ _ Hl. lia.
Qed.

Lemma exec_do_grows en d q p conns : grows conns (fst (exec_do en d q p conns)) (snd (exec_do en d q p conns)).
Proof.
  unfold exec_do.
  match goal with |- context [match ?x with Some _ => _ | None => _ end] => destruct x eqn:E end;
  [destruct p as [p'|]|].
  - pose proof (register_grows (-1) z (q_domain q) (q_port q) conns
      [HandedOver z q p' (match split1 ":" (q_cmdline q) with Some (_, t) => t | None => "" end)] (HSock z) eq_refl eq_refl eq_refl (or_intror (conj eq_refl eq_refl))) as R.
    cbv zeta in R. destruct (register _ _ _ _ _) as [c o]. exact R.
  - discriminate.
  - pose proof (register_grows (d_pid d) (-1) (q_domain q) (q_port q) conns
      [Started (d_pid d) q p] (HProc (d_pid d)) eq_refl eq_refl eq_refl (or_introl (conj eq_refl eq_refl))) as R.
    cbv zeta in R. destruct (register _ _ _ _ _) as [c o]. exact R.
Qed.
Lemma run_waiting_grows en envs ws : forall i conns,
  grows conns (fst (run_waiting en envs i ws conns)) (snd (run_waiting en envs i ws conns)).
Proof.
  induction ws as [|[[q p]|] ws IH]; intros i conns; cbn [run_waiting].
  - apply grows_nil; reflexivity.
  - pose proof (exec_do_grows en (envs i) q p conns) as G. destruct (exec_do _ _ _ _ _) as [c1 o1].
    specialize (IH (S i) c1). destruct (run_waiting _ _ _ _ _) as [c2 o2]. cbn [fst snd] in *.
    exact (grows_trans _ _ _ _ _ G IH).
  - apply IH.
Qed.
Lemma service_connect_grows i d p b conns :
  grows conns (fst (service_connect i d p b conns)) (snd (service_connect i d p b conns)).
Proof.
  unfold service_connect. destruct (scan_socket i) as [fd| |]; try (apply grows_nil; reflexivity).
  destruct b; [apply grows_nil; reflexivity|].
  pose proof (register_grows (-1) fd d p conns [ParamsTo fd d p] (HSock fd) eq_refl eq_refl eq_refl (or_intror (conj eq_refl eq_refl))) as R.
  cbv zeta in R. destruct (register _ _ _ _ _) as [c o]. exact R.
Qed.
Lemma exec_init_grows en f forked d q s :
  grows (a_conns s) (a_conns (fst (exec_init en f forked d q s))) (snd (exec_init en f forked d q s)).
Proof.
  unfold exec_init. remember (prepare f (q_cmdline q)) as p eqn:Ep. clear Ep. cbv zeta.
  assert (D : forall s out, reported out = [] -> opened out = [] -> existsb is_noslot out = false ->
    let r := (let (s', out') := set_conns s (exec_do en d q p (a_conns s)) in (s', out ++ out')) in
    grows (a_conns s) (a_conns (fst r)) (snd r)).
  { intros s0 out H1 H2 H3. unfold set_conns. pose proof (exec_do_grows en d q p (a_conns s0)) as G.
    destruct (exec_do _ _ _ _ _) as [c o]. cbn [fst snd a_conns] in *.
    refine (grows_trans _ _ _ _ _ _ G). apply grows_nil; auto. }
  destruct p as [c|]; [|apply (D s []); reflexivity].
  match goal with |- context [if ?x then _ else _] => destruct x end; [|apply (D s []); reflexivity].
  unfold wait_for_session_maybe. destruct (a_wait s) as [w|]; [|destruct forked as [pid|]]; cbn [a_waiting].
  - destruct (first_free (a_waiting s)); [apply grows_nil; reflexivity|apply (D s []); reflexivity].
  - destruct (first_free (a_waiting s)); [apply grows_nil; reflexivity|].
    apply (D (mkAgent (a_conns s) (a_waiting s) (Some pid)) [WaitStarted pid (pr_user c) (pc_source (pr_cmd c))]); reflexivity.
  - apply (D s []); reflexivity.
Qed.

(** the ends *)
Lemma release_pid_spec pid envs conns :
  pid > 0 -> (forall c, In c (used conns) -> shape c) -> NoDup (map l_handle (conns_of conns)) ->
  let r := release_pid pid conns in
  List.length (fst r) = List.length conns /\
  (forall c, In c (used (fst r)) -> In c (used conns)) /\
  conns_of (fst r) = filter (fun c => negb (ends (Reaped pid envs) c)) (conns_of conns) /\
  reported (snd r) = map address (filter (ends (Reaped pid envs)) (conns_of conns)) /\
  opened (snd r) = [] /\ existsb is_noslot (snd r) = false.
Proof.
  intros Hp. induction conns as [|[c|] conns IH]; intros Hs Hn; cbn [release_pid]; cbv zeta.
  - repeat split; auto.
  - unfold conns_of in *. cbn [used map] in *. apply NoDup_cons_iff in Hn as [Hni Hn].
    assert (Hc : shape c) by (apply Hs; left; auto).
    assert (E : ends (Reaped pid envs) (conn_of c) = (c_pid c =? pid)).
    { unfold ends, conn_of. cbn [l_handle]. destruct Hc as [[F P]|[F P]].
      - rewrite F. cbn. lia.
      - destruct (c_fd c =? -1) eqn:X; lia. }
    destruct (c_pid c =? pid) eqn:Ec.
    + cbn [fst snd used map filter reported opened List.length]. rewrite E. cbn [negb map].
      assert (Z : forall x, In x (map conn_of (used conns)) -> ends (Reaped pid envs) x = false).
      { intros x Hx. unfold ends. destruct (l_handle x) as [p|] eqn:Eh; [|reflexivity].
        destruct (pid =? p) eqn:Epp; [|reflexivity]. exfalso. apply Hni. apply in_map_iff. exists x. split; [|auto].
        rewrite Eh. unfold conn_of. cbn [l_handle]. destruct Hc as [[F P]|[F P]]; [|lia].
        rewrite F. cbn. f_equal. lia. }
      assert (F1 : filter (ends (Reaped pid envs)) (map conn_of (used conns)) = []).
      { clear -Z. induction (map conn_of (used conns)) as [|x l IHl]; auto. cbn [filter]. rewrite (Z x) by (left; auto).
        apply IHl. intros y Hy; apply Z; right; auto. }
      assert (F2 : filter (fun c => negb (ends (Reaped pid envs) c)) (map conn_of (used conns)) = map conn_of (used conns)).
      { clear -Z. induction (map conn_of (used conns)) as [|x l IHl]; auto. cbn [filter]. rewrite (Z x) by (left; auto).
        cbn [negb]. f_equal. apply IHl. intros y Hy; apply Z; right; auto. }
      rewrite F1, F2. repeat split; auto. intros x Hx. right. auto.
    + specialize (IH (fun x Hx => Hs x (or_intror Hx)) Hn). cbv zeta in IH.
      destruct (release_pid pid conns) as [cs o]. cbn [fst snd used map filter List.length] in *. rewrite E. cbn [negb].
      destruct IH as (I1 & I2 & I3 & I4 & I5 & I6). rewrite I3, I4, I1. repeat split; auto.
      intros x [<-|Hx]; [left; auto|right; auto].
  - specialize (IH Hs Hn). cbv zeta in IH.
    destruct (release_pid pid conns) as [cs o]. cbn [fst snd used] in *. unfold conns_of in *. cbn [used List.length].
    destruct IH as (I1 & I2 & I3 & I4 & I5 & I6). rewrite I1. repeat split; auto.
Qed.

Lemma poll_conns_spec ready conns :
  (forall c, In c (used conns) -> shape c) ->
  let r := poll_conns ready conns in
  List.length (fst r) = List.length conns /\
  (forall c, In c (used (fst r)) -> In c (used conns)) /\
  conns_of (fst r) = filter (fun c => negb (ends (Polled ready) c)) (conns_of conns) /\
  reported (snd r) = map address (filter (ends (Polled ready)) (conns_of conns)) /\
  opened (snd r) = [] /\ existsb is_noslot (snd r) = false.
Proof.
  induction conns as [|[c|] conns IH]; intros Hs; cbn [poll_conns]; cbv zeta.
  - repeat split; auto.
  - specialize (IH (fun x Hx => Hs x (or_intror Hx))). cbv zeta in IH.
    assert (Hc : shape c) by (apply Hs; left; auto).
    assert (E : ends (Polled ready) (conn_of c) = negb (c_fd c =? -1) && ready (c_fd c)).
    { unfold ends, conn_of. cbn [l_handle]. destruct (c_fd c =? -1); reflexivity. }
    destruct (poll_conns ready conns) as [cs o]. cbn [fst snd] in *. destruct IH as (I1 & I2 & I3 & I4 & I5 & I6).
    unfold conns_of in *. cbn [used map filter]. rewrite E.
    destruct (_ && _); cbn [fst snd used map List.length reported opened existsb is_noslot negb orb]; rewrite I1, I3, I4; repeat split; auto.
    + intros x Hx. right. auto.
    + intros x [<-|Hx]; [left; auto|right; auto].
  - specialize (IH Hs). cbv zeta in IH. destruct (poll_conns ready conns) as [cs o]. cbn [fst snd used List.length] in *.
    destruct IH as (I1 & I2 & I3 & I4 & I5 & I6). unfold conns_of in *. cbn [used]. rewrite I1. repeat split; auto.
Qed.

Definition conn_inv (s : agent) (live : list conn) : Prop :=
  Permutation (conns_of (a_conns s)) live /\ (forall c, In c (used (a_conns s)) -> shape c) /\
  List.length (a_conns s) = MAX_FDS.

Lemma filter_none {A} (f : A -> bool) l : (forall x, In x l -> f x = false) -> filter f l = [].
Proof.
  induction l as [|x l IH]; auto. intros H. cbn [filter]. rewrite (H x) by (left; auto). apply IH. intros y Hy. apply H. right. auto.
Qed.
Lemma filter_all {A} (f : A -> bool) l : (forall x, In x l -> f x = true) -> filter f l = l.
Proof.
  induction l as [|x l IH]; auto. intros H. cbn [filter]. rewrite (H x) by (left; auto). f_equal. apply IH. intros y Hy. apply H. right. auto.
Qed.

(** steps that only add connections *)
Lemma grow_inv ev s s' out live : conn_inv s live -> grows (a_conns s) (a_conns s') out ->
  (forall c, In c live -> ends ev c = false) ->
  oks (live_after ev out live) -> (List.length (live_after ev out live) <= MAX_FDS)%nat ->
  conn_inv s' (live_after ev out live) /\ Permutation (reported out) (map address (ended ev live)) /\
  existsb is_noslot out = false.
Proof.
  intros (P & Sh & L) (GL & GR & G) He Ho Hl. unfold ended. rewrite (filter_none _ _ He). rewrite GR.
  assert (E : live_after ev out live = live ++ opened out).
  { unfold live_after. rewrite filter_all; auto. intros c Hc. rewrite (He c Hc). reflexivity. }
  rewrite E in *. rewrite app_length in Hl. pose proof (Permutation_length P) as PL. unfold conns_of in PL. rewrite map_length in PL.
  assert (A : oks (opened out)) by (intros c Hc; apply Ho, in_or_app; right; exact Hc).
  assert (B : (List.length (used (a_conns s)) + List.length (opened out) <= List.length (a_conns s))%nat) by (rewrite L; lia).
  destruct (G A Sh B) as (G1 & G2 & G3 & G4).
  split; [|split; auto]. split; [|split; [auto|congruence]]. rewrite G1. now apply Permutation_app_tail.
Qed.
(** steps that only remove some *)
Lemma shrink_inv ev s s' out live : conn_inv s live ->
  List.length (a_conns s') = List.length (a_conns s) /\
  (forall c, In c (used (a_conns s')) -> In c (used (a_conns s))) /\
  conns_of (a_conns s') = filter (fun c => negb (ends ev c)) (conns_of (a_conns s)) /\
  reported out = map address (filter (ends ev) (conns_of (a_conns s))) /\
  opened out = [] /\ existsb is_noslot out = false ->
  conn_inv s' (live_after ev out live) /\ Permutation (reported out) (map address (ended ev live)) /\
  existsb is_noslot out = false.
Proof.
  intros (P & Sh & L) (I1 & I2 & I3 & I4 & I5 & I6). unfold live_after, ended. rewrite I5, app_nil_r.
  split; [|split; [|auto]].
  - split; [|split; [auto|congruence]]. rewrite I3. now apply perm_filter.
  - rewrite I4. apply Permutation_map. now apply perm_filter.
Qed.

Lemma step_conns en ev s s' out live : step en ev s = (s', out) -> dies out = false ->
  conn_inv s live -> NoDup (map l_handle live) ->
  (forall w, a_wait s = Some w -> ~ In (HProc w) (map l_handle live)) ->
  (forall pid envs, ev = Reaped pid envs -> pid > 0) ->
  oks (live_after ev out live) -> (List.length (live_after ev out live) <= MAX_FDS)%nat ->
  conn_inv s' (live_after ev out live) /\ Permutation (reported out) (map address (ended ev live)) /\
  existsb is_noslot out = false.
Proof.
  intros H Hd I Nd Hw Hp Ho Hl. pose proof I as (P & Sh & L).
  destruct ev as [e type len body|pid envs|ready|fd type len data]; cbn [step] in H.
  - refine (grow_inv _ _ _ _ _ I _ _ Ho Hl); [|reflexivity].
    unfold handle_server_cmd in H. destruct (_ || _).
    + destruct (_ || _); [injection H as <- <-; discriminate Hd|].
      destruct (type =? MSG_SERVICE_CONNECT).
      * unfold set_conns in H. pose proof (service_connect_grows (cstr (stake (Z.to_nat (len - 9)) (sdrop 8 body))) (u32 body) (u32 (sdrop 4 body)) (m_ebadf e) (a_conns s)) as G.
        destruct (service_connect _ _ _ _ _) as [c o]. cbn [fst snd] in *. injection H as <- <-. exact G.
      * pose proof (exec_init_grows en (m_files e) (m_forked e) (m_do e) (message_request type len body) s) as G.
        change (mkReq type _ _ _) with (message_request type len body) in H. rewrite H in G. exact G.
    + destruct (type =? MSG_SERVICE_REFUSED); injection H as <- <-; [|discriminate Hd].
      unfold service_refused in *. destruct (negb _); [discriminate Hd|].
      destruct (scan_socket _); apply grows_nil; reflexivity.
  - unfold reap in H. destruct (match a_wait s with Some w => pid =? w | None => false end) eqn:Ew.
    + refine (grow_inv _ _ _ _ _ I _ _ Ho Hl).
      * pose proof (run_waiting_grows en envs (a_waiting s) 0 (a_conns s)) as G.
        destruct (run_waiting _ _ _ _ _) as [c o]. injection H as <- <-. exact G.
      * destruct (a_wait s) as [w|]; [|discriminate]. intros c Hc. unfold ends. destruct (l_handle c) as [p|] eqn:El; [|reflexivity].
        destruct (pid =? p) eqn:Ep; [|reflexivity]. exfalso. apply (Hw w eq_refl). apply in_map_iff. exists c. split; [|auto].
        rewrite El. f_equal. lia.
    + refine (shrink_inv _ _ _ _ _ I _). unfold set_conns in H.
      assert (N : NoDup (map l_handle (conns_of (a_conns s)))).
      { eapply Permutation_NoDup; [|exact Nd]. apply Permutation_map. symmetry. exact P. }
      pose proof (release_pid_spec pid envs (a_conns s) (Hp _ _ eq_refl) Sh N) as R.
      destruct (release_pid _ _) as [c o]. cbn [fst snd] in *. injection H as <- <-. exact R.
  - refine (shrink_inv _ _ _ _ _ I _). unfold set_conns in H. pose proof (poll_conns_spec ready (a_conns s) Sh) as R.
    destruct (poll_conns _ _) as [c o]. cbn [fst snd] in *. injection H as <- <-. exact R.
  - refine (grow_inv _ _ _ _ _ I _ _ Ho Hl); [|reflexivity]. injection H as <- <-.
    unfold handle_trigger_io. destruct (_ || _); [apply grows_nil; reflexivity|]. destruct (_ <? _); apply grows_nil; reflexivity.
Qed.

Lemma system_ok_prefix h x : system_ok (h ++ x) -> system_ok h.
Proof. intros H h1 ev out h2 E. apply (H h1 ev out (h2 ++ x)). now rewrite E, <- app_assoc. Qed.
Lemma few_prefix h x : few_connections (h ++ x) -> few_connections h.
Proof. intros H h1 h2 E. apply (H h1 (h2 ++ x)). now rewrite E, <- app_assoc. Qed.
Lemma live_snoc h ev out : live_connections (h ++ [(ev, out)]) = live_after ev out (live_connections h).
Proof. unfold live_connections. rewrite fold_left_app. reflexivity. Qed.

Lemma system_ok_live h : system_ok h ->
  NoDup (map l_handle (live_connections h)) /\
  (forall w, waiting_process h = Some w -> ~ In (HProc w) (map l_handle (live_connections h))).
Proof.
  intros H. destruct h as [|[ev out] h' _] using rev_ind.
  - split; [constructor|]. intros w _ [].
  - specialize (H h' ev out [] eq_refl). cbv zeta in H. destruct H as (N & O & W & _).
    rewrite live_snoc. split; auto. intros w Hw. apply (W w Hw).
Qed.

Lemma history_conns en h s : history en h s -> system_ok h -> few_connections h ->
  conn_inv s (live_connections h).
Proof.
  induction 1 as [|h s ev s' out H IH Hs Hd]; intros So Fe.
  - unfold conn_inv, start. cbn [a_conns]. unfold conns_of. rewrite used_repeat, repeat_length.
    split; [constructor|]. split; [intros c []|reflexivity].
  - specialize (IH (system_ok_prefix _ _ So) (few_prefix _ _ Fe)).
    destruct (system_ok_live _ (system_ok_prefix _ _ So)) as (N & W).
    destruct (history_inv _ _ _ H) as (_ & Ew & _).
    destruct (So h ev out [] eq_refl) as (N' & O & W' & Pp). rewrite live_snoc.
    refine (proj1 (step_conns _ _ _ _ _ _ Hs Hd IH N _ Pp O _)).
    + intros w Hw. apply W. congruence.
    + rewrite <- live_snoc. apply (Fe _ []). now rewrite app_nil_r.
Qed.

Lemma history_split en h1 x h2 s : history en (h1 ++ x :: h2) s ->
  exists s1 s2, history en h1 s1 /\ step en (fst x) s1 = (s2, snd x) /\ dies (snd x) = false /\ history en (h1 ++ [x]) s2.
Proof.
  intros H. remember (h1 ++ x :: h2) as h eqn:E. revert h2 E. induction H as [|h s ev s' out H IH Hs Hd]; intros h2 E.
  - destruct h1; discriminate.
  - destruct h2 as [|y h2 _] using rev_ind.
    + apply app_inj_tail in E as [-> <-]. exists s, s'. cbn [fst snd]. split; auto. split; auto. split; auto.
      econstructor; eauto.
    + rewrite app_comm_cons, app_assoc in E. apply app_inj_tail in E as [-> <-]. eauto.
Qed.

Theorem ends_reported en h s : history en h s -> system_ok h -> few_connections h ->
  forall h1 ev out h2, h = h1 ++ (ev, out) :: h2 ->
    Permutation (reported out) (map address (ended ev (live_connections h1))) /\ existsb is_noslot out = false.
Proof.
  intros H So Fe h1 ev out h2 ->.
  destruct (history_split _ _ _ _ _ H) as (s1 & s2 & H1 & St & Hd & H2). cbn [fst snd] in *.
  change ((ev, out) :: h2) with ([(ev, out)] ++ h2) in *. rewrite app_assoc in So, Fe.
  apply system_ok_prefix in So. apply few_prefix in Fe.
  pose proof (history_conns _ _ _ H1 (system_ok_prefix _ _ So) (few_prefix _ _ Fe)) as I.
  destruct (system_ok_live _ (system_ok_prefix _ _ So)) as (N & W).
  destruct (history_inv _ _ _ H1) as (_ & Ew & _).
  destruct (So h1 ev out [] eq_refl) as (N' & O & W' & Pp).
  refine (proj2 (step_conns _ _ _ _ _ _ St Hd I N _ Pp O _)).
  - intros w Hw. apply W. congruence.
  - rewrite <- live_snoc. apply (Fe _ []). now rewrite app_nil_r.
Qed.

Lemma filter_split {A} (f : A -> bool) l : Permutation l (filter f l ++ filter (fun x => negb (f x)) l).
Proof.
  induction l as [|x l IH]; auto. cbn [filter]. destruct (f x); cbn [negb app].
  - now constructor.
  - rewrite IH at 1. apply Permutation_middle.
Qed.


Theorem reports_balance en h s : history en h s -> system_ok h -> few_connections h ->
  Permutation (map address (all_opened h)) (all_reported h ++ map address (live_connections h)).
Proof.
  induction 1 as [|h s ev s' out H IH Hs Hd]; intros So Fe.
  - reflexivity.
  - specialize (IH (system_ok_prefix _ _ So) (few_prefix _ _ Fe)).
    destruct (ends_reported _ _ _ (h_step _ _ _ _ _ _ H Hs Hd) So Fe h ev out [] eq_refl) as [R _].
    unfold all_opened, all_reported in *. rewrite !flat_map_snoc. cbn [snd]. rewrite live_snoc.
    rewrite map_app, IH. rewrite R. rewrite <- !app_assoc. apply Permutation_app_head.
    unfold live_after, ended. rewrite map_app, app_assoc. apply Permutation_app_tail.
    rewrite <- map_app. apply Permutation_map, filter_split.
Qed.

(** ** When requests are carried out *)
Lemma history_held en h s : history en h s -> Forall (fun x => may_wait (snd x)) (used (a_waiting s)) /\
  List.length (a_waiting s) = MAX_FDS.
Proof.
  induction 1 as [|h s ev s' out H [IH IL] Hs Hd].
  - unfold start. cbn [a_waiting]. rewrite used_repeat, repeat_length. split; [constructor|reflexivity].
  - destruct (history_inv _ _ _ H) as (_ & _ & N).
    destruct ev as [e type len body|pid envs|ready|fd type len data]; cbn [step] in Hs.
    + unfold handle_server_cmd in Hs. destruct (_ || _).
      * destruct (_ || _); [injection Hs as <- <-; auto|].
        destruct (type =? MSG_SERVICE_CONNECT).
        -- unfold set_conns in Hs. injection Hs as <- _. auto.
        -- pose proof (exec_init_spec en (m_files e) (m_forked e) (m_do e) (message_request type len body) s N) as X.
           change (mkReq type _ _ _) with (message_request type len body) in Hs.
           assert (L : List.length (a_waiting s') = List.length (a_waiting s)).
           { clear -Hs. unfold exec_init in Hs. destruct (prepare _ _) as [c|].
             - match type of Hs with (if ?x then _ else _) = _ => destruct x end.
               + unfold wait_for_session_maybe in Hs.
                 destruct (a_wait s); [|destruct (m_forked e)]; cbn [a_waiting] in Hs;
                 try (destruct (first_free (a_waiting s))); unfold set_conns in Hs;
                 try (destruct (exec_do _ _ _ _ _)); injection Hs as <- _; cbn [a_waiting]; rewrite ?put_length; reflexivity.
               + unfold set_conns in Hs. destruct (exec_do _ _ _ _ _). injection Hs as <- _. reflexivity.
             - unfold set_conns in Hs. destruct (exec_do _ _ _ _ _). injection Hs as <- _. reflexivity. }
           rewrite Hs in X. cbn [fst snd] in X. rewrite L, IL. split; [|reflexivity].
           destruct X as ([[_ ->]|(_ & P & _ & M)] & _); [auto|].
           rewrite P. constructor; auto.
      * destruct (type =? _); injection Hs as <- <-; auto.
    + unfold reap in Hs. destruct (match a_wait s with Some w => _ | None => _ end).
      * destruct (run_waiting _ _ _ _ _). injection Hs as <- _. cbn [a_waiting]. rewrite used_cleared, map_length. auto.
      * unfold set_conns in Hs. injection Hs as <- _. auto.
    + unfold set_conns in Hs. injection Hs as <- _. auto.
    + injection Hs as <- _. auto.
Qed.

Lemma exec_init_at_once en f forked d q s :
  ~ may_wait (prepare f (q_cmdline q)) -> carried_out (snd (exec_init en f forked d q s)) = [(q, prepare f (q_cmdline q))].
Proof.
  intros M. unfold exec_init. remember (prepare f (q_cmdline q)) as p eqn:Ep. clear Ep. cbv zeta.
  assert (D : carried_out (snd (let (s', out') := set_conns s (exec_do en d q p (a_conns s)) in (s', [] ++ out'))) = [(q, p)]).
  { unfold set_conns. pose proof (exec_do_out en d q p (a_conns s)) as [H1 H2].
    destruct (exec_do _ _ _ _ _) as [c o]. exact H1. }
  destruct p as [c|]; [|exact D].
  match goal with |- context [if ?x then _ else _] => destruct x eqn:E end; [|exact D].
  exfalso. apply M. apply andb_prop in E as [E E3]. apply andb_prop in E as [E1 E2]. exists c. repeat split; auto.
  - destruct (pc_descriptor (pr_cmd c)); congruence.
  - now destruct (pc_nogui (pr_cmd c)).
Qed.
Lemma exec_init_waits en f forked d q s :
  may_wait (prepare f (q_cmdline q)) -> (a_wait s <> None \/ forked <> None) ->
  (List.length (used (a_waiting s)) < List.length (a_waiting s))%nat ->
  let r := exec_init en f forked d q s in
  carried_out (snd r) = [] /\ a_wait (fst r) = match a_wait s with Some w => Some w | None => forked end.
Proof.
  intros (c & Ep & D1 & D2 & D3) W L. cbv zeta. unfold exec_init. rewrite Ep. cbv zeta.
  assert (C : (match pc_descriptor (pr_cmd c) with Some _ => true | None => false end &&
         negb (pc_nogui (pr_cmd c)) && cf_wait_for_session (pr_config c))%bool = true).
  { destruct (pc_descriptor (pr_cmd c)); [|congruence]. rewrite D2, D3. reflexivity. }
  rewrite C. unfold wait_for_session_maybe.
  assert (F : exists i, first_free (a_waiting s) = Some i).
  { destruct (first_free (a_waiting s)) as [i|] eqn:Ei; [eauto|]. apply full_used in Ei. lia. }
  destruct F as [i F]. destruct (a_wait s) as [w|] eqn:Ew.
  - rewrite F. cbn [snd fst a_wait carried_out]. auto.
  - destruct forked as [pid|]; [|destruct W; congruence]. cbn [a_waiting]. rewrite F. cbn [snd fst a_wait carried_out]. auto.
Qed.

(** ** The fork server *)
Definition handed_ok (en : bool) (q : request) (p : prepared) (text : string) : Prop :=
  en = true /\ zlen (q_cmdline q) < 65535 /\
  qrexec_cmd_use_fork_server (pc_nogui (pr_cmd p)) (pr_config p) = true /\
  exists u, q_cmdline q = u +++ ":" +++ text /\ has_char ":" u = false.

Lemma register_handed pid fd d p conns fd' q pr t : ~ In (HandedOver fd' q pr t) (snd (register pid fd d p conns)).
Proof. destruct (register_out pid fd d p conns) as [-> | ->]; cbn; intuition discriminate. Qed.
Lemma has_char_split1 c s : has_char c s = true -> exists u t, split1 c s = Some (u, t).
Proof.
  induction s as [|a s IH]; [discriminate|]. cbn [has_char split1]. destruct (Ascii.eqb c a); [eauto|].
  cbn [orb]. intros H. destruct (IH H) as (u & t & ->). eauto.
Qed.
Lemma exec_do_handed en d q0 p0 conns fd q p text :
  In (HandedOver fd q p text) (snd (exec_do en d q0 p0 conns)) -> handed_ok en q p text.
Proof.
  unfold exec_do.
  match goal with |- context [match (if ?x then _ else _) with Some _ => _ | None => _ end] => destruct x eqn:E end.
  - destruct p0 as [p'|]; [|discriminate].
    assert (N : forall pid fd0, In (HandedOver fd q p text) (snd (let (conns', out) := register pid (-1) (q_domain q0) (q_port q0) conns in (conns', Started fd0 q0 (Some p') :: out))) -> False).
    { intros pid fd0. pose proof (register_handed pid (-1) (q_domain q0) (q_port q0) conns fd q p text) as R.
      destruct (register _ _ _ _ _) as [c o]. cbn [snd In] in *. intuition discriminate. }
    destruct (d_server d) as [z|]; [|intros H; destruct (N _ _ H)]. clear N.
    pose proof (register_handed (-1) z (q_domain q0) (q_port q0) conns fd q p text) as R.
    destruct (register _ _ _ _ _) as [c o]. cbn [snd] in *. intros [H|H]; [|contradiction].
    apply andb_prop in E as [E1 E2]. unfold fork_server_tried in E2. apply andb_prop in E2 as [E2 E4]. apply andb_prop in E2 as [E2 E3].
    destruct (has_char_split1 _ _ E4) as (u & t & Hs). rewrite Hs in H. injection H as _ <- <- <-.
    apply split1_spec in Hs as [Hs Hc]. unfold handed_ok. split; [auto|]. split; [unfold MAX_QREXEC_CMD_LEN in E3; lia|].
    split; [auto|]. exists u. split; [|auto]. exact Hs.
  - pose proof (register_handed (d_pid d) (-1) (q_domain q0) (q_port q0) conns fd q p text) as R.
    destruct p0 as [p'|]; destruct (register _ _ _ _ _) as [c o]; cbn [snd In] in *; intros [H|H]; try discriminate; contradiction.
Qed.
Lemma run_waiting_handed en envs ws fd q p text : forall i conns,
  In (HandedOver fd q p text) (snd (run_waiting en envs i ws conns)) -> handed_ok en q p text.
Proof.
  induction ws as [|[[q0 p0]|] ws IH]; intros i conns; cbn [run_waiting].
  - intros [].
  - pose proof (exec_do_handed en (envs i) q0 p0 conns fd q p text) as G. destruct (exec_do _ _ _ _ _) as [c1 o1].
    specialize (IH (S i) c1). destruct (run_waiting _ _ _ _ _) as [c2 o2]. cbn [fst snd] in *.
    intros H. apply in_app_or in H as [H|H]; auto.
  - apply IH.
Qed.
Lemma release_handed pid conns fd q p text : ~ In (HandedOver fd q p text) (snd (release_pid pid conns)).
Proof.
  induction conns as [|[c|] conns IH]; cbn [release_pid]; [intros []| |].
  - destruct (c_pid c =? pid); [cbn; intuition discriminate|]. destruct (release_pid pid conns). exact IH.
  - destruct (release_pid pid conns). exact IH.
Qed.
Lemma poll_handed ready conns fd q p text : ~ In (HandedOver fd q p text) (snd (poll_conns ready conns)).
Proof.
  induction conns as [|[c|] conns IH]; cbn [poll_conns]; [intros []| |].
  - destruct (poll_conns ready conns). cbn [snd] in *. destruct (_ && _); cbn [snd In]; intuition discriminate.
  - destruct (poll_conns ready conns). exact IH.
Qed.
Lemma service_connect_handed i d p b conns fd q pr text : ~ In (HandedOver fd q pr text) (snd (service_connect i d p b conns)).
Proof.
  unfold service_connect. destruct (scan_socket i) as [n| |]; [|intros []..]. destruct b; [intros []|].
  pose proof (register_handed (-1) n d p conns fd q pr text) as R. destruct (register _ _ _ _ _). cbn [snd In] in *. intuition discriminate.
Qed.
Lemma exec_init_handed en f forked d q0 s fd q p text :
  In (HandedOver fd q p text) (snd (exec_init en f forked d q0 s)) -> handed_ok en q p text.
Proof.
  unfold exec_init. remember (prepare f (q_cmdline q0)) as p0 eqn:Ep. clear Ep. cbv zeta.
  assert (D : forall s out, ~ In (HandedOver fd q p text) out ->
    In (HandedOver fd q p text) (snd (let (s', out') := set_conns s (exec_do en d q0 p0 (a_conns s)) in (s', out ++ out'))) -> handed_ok en q p text).
  { intros s0 out Ho. unfold set_conns. pose proof (exec_do_handed en d q0 p0 (a_conns s0) fd q p text) as G.
    destruct (exec_do _ _ _ _ _) as [c o]. cbn [fst snd] in *. intros H. apply in_app_or in H as [H|H]; [contradiction|auto]. }
  destruct p0 as [c|]; [|apply (D s []); intros []].
  match goal with |- context [if ?x then _ else _] => destruct x end; [|apply (D s []); intros []].
  unfold wait_for_session_maybe. destruct (a_wait s) as [w|]; [|destruct forked as [pid|]]; cbn [a_waiting].
  - destruct (first_free (a_waiting s)); [intros []|apply (D s []); intros []].
  - destruct (first_free (a_waiting s)); [cbn; intuition discriminate|]. apply D. cbn; intuition discriminate.
  - apply (D s []); intros [].
Qed.
Lemma step_handed en ev s fd q p text :
  In (HandedOver fd q p text) (snd (step en ev s)) -> handed_ok en q p text.
Proof.
  destruct ev as [e type len body|pid envs|ready|fd0 type len data]; cbn [step].
  - unfold handle_server_cmd. destruct (_ || _).
    + destruct (_ || _); [cbn; intuition discriminate|]. destruct (type =? MSG_SERVICE_CONNECT).
      * unfold set_conns. cbn [snd]. intros H. destruct (service_connect_handed _ _ _ _ _ _ _ _ _ H).
      * apply exec_init_handed.
    + destruct (type =? MSG_SERVICE_REFUSED); [|cbn; intuition discriminate].
      unfold service_refused. cbn [snd]. destruct (negb _); [cbn; intuition discriminate|].
      destruct (scan_socket _); cbn; intuition discriminate.
  - unfold reap. destruct (match a_wait s with Some w => _ | None => _ end).
    + pose proof (run_waiting_handed en envs (a_waiting s) fd q p text 0 (a_conns s)) as R.
      destruct (run_waiting _ _ _ _ _). exact R.
    + unfold set_conns. cbn [snd]. intros H. destruct (release_handed _ _ _ _ _ _ H).
  - unfold set_conns. cbn [snd]. intros H. destruct (poll_handed _ _ _ _ _ _ H).
  - cbn [snd]. unfold handle_trigger_io. destruct (_ || _); [cbn; intuition discriminate|]. destruct (_ <? _); cbn; intuition discriminate.
Qed.
Lemma in_carried fd q p text out : In (HandedOver fd q p text) out -> In (q, Some p) (carried_out out).
Proof.
  induction out as [|o out IH]; [intros []|]. intros [->|H]; [left; reflexivity|].
  destruct o; cbn [carried_out]; try right; auto.
Qed.
Lemma in_started pid q p out : In (Started pid q p) out -> In (q, p) (carried_out out).
Proof.
  induction out as [|o out IH]; [intros []|]. intros [->|H]; [left; reflexivity|].
  destruct o; cbn [carried_out]; try right; auto.
Qed.
Lemma carried_received en h s q p : history en h s -> In (q, p) (all_carried_out h) ->
  exists e type len body out, In (Message e type len body, out) h /\ (type = 512 \/ type = 513) /\
    8 < len < 2147483648 /\ q = message_request type len body /\ p = prepare (m_files e) (q_cmdline q).
Proof.
  intros H Hi. destruct (history_inv _ _ _ H) as (P & _).
  assert (I : In (q, p) (all_received h)).
  { apply (Permutation_in _ (Permutation_sym P)). apply in_or_app. now left. }
  unfold all_received in I. apply in_flat_map in I as ([ev out] & I1 & I2). cbn [fst] in I2.
  destruct ev as [e type len body| | |]; try destruct I2. cbn [received] in I2.
  destruct (((type =? 512) || (type =? 513)) && (8 <? len) && (len <? 2147483648)) eqn:E; [|destruct I2].
  destruct I2 as [I2|[]]. injection I2 as <- <-.
  exists e, type, len, body, out. split; [auto|]. split; [lia|]. split; [lia|]. split; reflexivity.
Qed.
