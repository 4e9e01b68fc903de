(** C101: a qube that runs can be reached by its name *)
From Coq Require Import String Ascii List Bool Arith Lia.
From Verif Require Import Base SocketDir SpecSocketDir.
Import ListNotations.
Open Scope string_scope.
Open Scope list_scope.

Lemma nth_set {A} (l : list A) n x m : nth_error (set_nth l n x) m = if Nat.eqb m n then option_map (fun _ => x) (nth_error l n) else nth_error l m.
Proof.
  revert n m. induction l as [|y l IH]; intros n m; destruct n, m; cbn; try reflexivity.
  - destruct (Nat.eqb m n); reflexivity.
  - apply IH.
Qed.
Lemma put_same d n e : put d n e n = e.
Proof. unfold put. rewrite String.eqb_refl. reflexivity. Qed.
Lemma put_other d n e m : m <> n -> put d n e m = d m.
Proof. intros H. unfold put. apply String.eqb_neq in H. rewrite H. reflexivity. Qed.

(** the names of a daemon *)
Definition key (i : ident) (n : string) : Prop := n = uuid_link i \/ n = name_link i \/ n = sock_name i.
Lemma app_inj p a b : (p +++ a)%string = (p +++ b)%string -> a = b.
Proof. induction p as [|c p IH]; cbn; intros H; [exact H|]. apply IH. congruence. Qed.
Lemma usual_apart i j : usual i -> usual j -> name_link i <> uuid_link j /\ name_link i <> sock_name j /\ sock_name i <> uuid_link j.
Proof.
  intros ((c & s & N & L) & C & [X1 X2]) (_ & _ & [Y1 Y2]). unfold name_link, uuid_link, sock_name. split; [|split]; intros H.
  - apply (app_inj "qrexec." (i_name i) ("uuid:" +++ i_uuid j)) in H. rewrite H in C. cbn in C. discriminate.
  - apply app_inj in H. rewrite N in H. assert (D := Y2 c). rewrite <- H in D. cbn in D. rewrite Ascii.eqb_refl in D. specialize (D eq_refl).
    unfold letter in L. apply orb_true_iff in L. destruct L as [L|L]; apply andb_true_iff in L; destruct L as [L _]; apply Nat.leb_le in L; lia.
  - apply (app_inj "qrexec." (i_xid i) ("uuid:" +++ i_uuid j)) in H. assert (D := X2 "u"%char). rewrite H in D. specialize (D eq_refl). cbn in D. lia.
Qed.
Lemma keys_apart i j n : usual i -> usual j -> different i j -> key i n -> key j n -> False.
Proof.
  intros Ui Uj (DX & DN & DU) Ki Kj. destruct (usual_apart i j Ui Uj) as (A & B & C). destruct (usual_apart j i Uj Ui) as (A' & B' & C').
  destruct Ki as [Ki|[Ki|Ki]], Kj as [Kj|[Kj|Kj]]; try congruence; rewrite Ki in Kj; unfold name_link, uuid_link, sock_name in Kj; apply app_inj in Kj; congruence.
Qed.

(** what holds for a daemon *)
Definition fact (d : dir) (p : nat) (x : proc) : Prop :=
  let i := p_id x in let U := uuid_link i in let N := name_link i in let X := sock_name i in
  match p_phase x with
  | Creating =>
      p_todo x = create i \/
      (p_todo x = [Symlink X U; Unlink N; Symlink X N; Unlink X; Bind X] /\ d U = None) \/
      (p_todo x = [Unlink N; Symlink X N; Unlink X; Bind X] /\ d U = Some (Link X)) \/
      (p_todo x = [Symlink X N; Unlink X; Bind X] /\ d U = Some (Link X) /\ d N = None) \/
      (p_todo x = [Unlink X; Bind X] /\ d U = Some (Link X) /\ d N = Some (Link X)) \/
      (p_todo x = [Bind X] /\ d U = Some (Link X) /\ d N = Some (Link X) /\ d X = None)
  | Serving => p_todo x = [] /\ d U = Some (Link X) /\ d N = Some (Link X) /\ d X = Some (Sock p)
  | Waiting => p_todo x = [] /\ d U = None /\ d N = None /\ d X = None
  | Leaving | Ending =>
      p_todo x = remove i \/ (p_todo x = [Unlink U; Unlink X] /\ d N = None) \/ (p_todo x = [Unlink X] /\ d N = None /\ d U = None)
  | Gone => p_todo x = []
  end.
Lemma fact_frame d d' p x : fact d p x -> (forall n, key (p_id x) n -> d' n = d n) -> fact d' p x.
Proof.
  unfold fact. intros F K. assert (KU := K (uuid_link (p_id x)) (or_introl eq_refl)). assert (KN := K (name_link (p_id x)) (or_intror (or_introl eq_refl))).
  assert (KX := K (sock_name (p_id x)) (or_intror (or_intror eq_refl))). cbv zeta in *. rewrite KU, KN, KX. exact F.
Qed.
Record inv (s : state) : Prop := {
  inv_usual : forall p x, nth_error (s_procs s) p = Some x -> usual (p_id x);
  inv_apart : forall p q x y, nth_error (s_procs s) p = Some x -> nth_error (s_procs s) q = Some y -> p <> q -> alive x -> alive y -> different (p_id x) (p_id y);
  inv_fact : forall p x, nth_error (s_procs s) p = Some x -> fact (s_dir s) p x
}.
Lemma different_sym i j : different i j -> different j i.
Proof. intros (A & B & C). repeat split; congruence. Qed.

(** one system call of a daemon that is not gone *)
Lemma op_fact d p i f o todo : usual i -> fact d p (mkProc i f (o :: todo)) -> f <> Gone ->
  exists d', exec_op d p o = (d', true) /\ fact d' p (mkProc i (match todo with [] => next_phase f | _ => f end) todo) /\
    (forall n, ~ key i n -> d' n = d n) /\
    (f = Ending -> todo = [] -> d' (uuid_link i) = None /\ d' (name_link i) = None /\ d' (sock_name i) = None).
Proof.
  intros Us F NG. destruct (usual_apart i i Us Us) as (A1 & A2 & A3).
  assert (K : forall e n m, key i m -> ~ key i n -> put d m e n = d n) by (intros e n m M N; apply put_other; congruence).
  assert (KU : key i (uuid_link i)) by (left; reflexivity). assert (KN : key i (name_link i)) by (right; left; reflexivity). assert (KX : key i (sock_name i)) by (right; right; reflexivity).
  unfold fact in F. cbn [p_phase p_todo p_id] in F. cbv zeta in F. destruct f; try congruence.
  - destruct F as [F|[[F G]|[[F G]|[[F [G1 G2]]|[[F [G1 G2]]|[F (G1 & G2 & G3)]]]]]]; unfold create in F; injection F as -> ->; cbn [exec_op].
    + eexists. split; [reflexivity|]. split; [|split; [auto|discriminate]]. unfold fact. cbn [p_phase p_todo p_id]. right. left. split; [reflexivity|apply put_same].
    + rewrite G. eexists. split; [reflexivity|]. split; [|split; [auto|discriminate]]. unfold fact. cbn [p_phase p_todo p_id]. right. right. left. split; [reflexivity|apply put_same].
    + eexists. split; [reflexivity|]. split; [|split; [auto|discriminate]]. unfold fact. cbn [p_phase p_todo p_id]. right. right. right. left. split; [reflexivity|]. split; [rewrite put_other by congruence; exact G|apply put_same].
    + rewrite G2. eexists. split; [reflexivity|]. split; [|split; [auto|discriminate]]. unfold fact. cbn [p_phase p_todo p_id]. right. right. right. right. left. split; [reflexivity|]. split; [rewrite put_other by congruence; exact G1|apply put_same].
    + eexists. split; [reflexivity|]. split; [|split; [auto|discriminate]]. unfold fact. cbn [p_phase p_todo p_id]. right. right. right. right. right. split; [reflexivity|]. rewrite !put_other by congruence. rewrite put_same. auto.
    + rewrite G3. eexists. split; [reflexivity|]. split; [|split; [auto|discriminate]]. unfold fact. cbn [p_phase p_todo p_id next_phase]. split; [reflexivity|]. rewrite !(put_other _ (sock_name i)) by congruence. rewrite put_same. auto.
  - destruct F as [F _]. discriminate.
  - destruct F as [F|[[F G]|[F [G1 G2]]]]; unfold remove in F; injection F as -> ->; cbn [exec_op]; eexists; (split; [reflexivity|]); (split; [|split; [auto|discriminate]]); unfold fact; cbn [p_phase p_todo p_id next_phase].
    + right. left. split; [reflexivity|apply put_same].
    + right. right. split; [reflexivity|]. rewrite put_same. rewrite put_other by congruence. auto.
    + split; [reflexivity|]. rewrite put_same. rewrite !put_other by congruence. auto.
  - destruct F as [F _]. discriminate.
  - destruct F as [F|[[F G]|[F [G1 G2]]]]; unfold remove in F; injection F as -> ->; cbn [exec_op]; eexists; (split; [reflexivity|]); unfold fact; cbn [p_phase p_todo p_id next_phase].
    + split; [|split; [auto|discriminate]]. right. left. split; [reflexivity|apply put_same].
    + split; [|split; [auto|discriminate]]. right. right. split; [reflexivity|]. rewrite put_same. rewrite put_other by congruence. auto.
    + split; [reflexivity|]. split; [auto|]. intros _ _. rewrite put_same. rewrite !put_other by congruence. auto.
Qed.

Lemma inv_update s p x d x' : inv s -> nth_error (s_procs s) p = Some x -> alive x -> p_id x' = p_id x ->
  fact d p x' -> (forall n, ~ key (p_id x) n -> d n = s_dir s n) -> inv (update s d p x').
Proof.
  intros [IU IA IF] Hp Ax Ei F K. constructor; cbn [update s_procs s_dir].
  - intros q y. rewrite nth_set. destruct (Nat.eqb_spec q p) as [->|]; [|apply IU]. rewrite Hp. cbn. intros E. injection E as <-. rewrite Ei. eapply IU; eauto.
  - intros q r y z. rewrite !nth_set, Hp. cbn [option_map]. destruct (Nat.eqb_spec q p) as [->|Q], (Nat.eqb_spec r p) as [->|R]; intros Y Z NE Ay Az; try congruence.
    + injection Y as <-. rewrite Ei. eapply IA; eauto.
    + injection Z as <-. rewrite Ei. eapply IA; eauto.
    + eapply IA; eauto.
  - intros q y. rewrite nth_set, Hp. cbn [option_map]. destruct (Nat.eqb_spec q p) as [->|Q]; intros Y; [injection Y as <-; exact F|].
    destruct (p_phase y) eqn:Py; try (specialize (IF q y Y); unfold fact in *; rewrite Py in *; exact IF).
    all: assert (Ay : alive y) by (unfold alive; rewrite Py; discriminate).
    all: apply fact_frame with (d := s_dir s); [apply IF; exact Y|]; intros n Kn; apply K; intros Kp.
    all: eapply (keys_apart (p_id y) (p_id x)); [eapply IU; eauto|eapply IU; eauto|eapply IA; eauto|exact Kn|exact Kp].
Qed.
Lemma inv_step s e s' : inv s -> (forall i, e = EStart i -> usual i /\ forall x, In x (s_procs s) -> alive x -> different i (p_id x)) ->
  step s e = Some s' -> inv s'.
Proof.
  intros I Or H. destruct e as [i|p|p|p|p|p]; cbn [step] in H.
  - injection H as <-. destruct (Or i eq_refl) as [Us D]. destruct I as [IU IA IF].
    assert (C : forall q y, nth_error (s_procs s ++ [mkProc i Creating (create i)]) q = Some y ->
              (nth_error (s_procs s) q = Some y) \/ (q = length (s_procs s) /\ y = mkProc i Creating (create i))).
    { intros q y Q. destruct (Nat.lt_ge_cases q (length (s_procs s))) as [L|L]; [left; rewrite nth_error_app1 in Q by lia; exact Q|].
      right. rewrite nth_error_app2 in Q by lia. destruct (q - length (s_procs s)) as [|k] eqn:K; cbn in Q; [split; [lia|congruence]|destruct k; discriminate]. }
    constructor; cbn [s_procs s_dir].
    + intros q y Q. apply C in Q. destruct Q as [Q|[_ ->]]; [eapply IU; eauto|exact Us].
    + intros q r y z Q R NE Ay Az. apply C in Q. apply C in R. destruct Q as [Q|[Eq ->]], R as [R|[Er ->]].
      * eapply IA; eauto.
      * apply different_sym. apply D; [eapply nth_error_In; eauto|exact Ay].
      * apply D; [eapply nth_error_In; eauto|exact Az].
      * lia.
    + intros q y Q. apply C in Q. destruct Q as [Q|[_ ->]]; [apply IF; exact Q|]. left. reflexivity.
  - destruct (nth_error (s_procs s) p) as [[i f [|o todo]]|] eqn:E; try discriminate.
    assert (NG : f <> Gone). { intros ->. pose proof (inv_fact _ I _ _ E) as F. cbn in F. discriminate. }
    destruct (op_fact _ _ _ _ _ _ (inv_usual _ I _ _ E) (inv_fact _ I _ _ E) NG) as (d' & X & F & K & _). rewrite X in H. injection H as <-.
    eapply inv_update; eauto.
  - destruct (nth_error (s_procs s) p) as [[i f todo]|] eqn:E; [|discriminate]. destruct f; try discriminate. injection H as <-.
    eapply inv_update; eauto; [discriminate|]. left. reflexivity.
  - destruct (nth_error (s_procs s) p) as [[i f todo]|] eqn:E; [|discriminate]. destruct f; try discriminate. injection H as <-.
    eapply inv_update; eauto; [discriminate|]. left. reflexivity.
  - destruct (nth_error (s_procs s) p) as [[i f todo]|] eqn:E; [|discriminate]. destruct f; try discriminate; injection H as <-.
    all: eapply inv_update; eauto; [discriminate|]; left; reflexivity.
  - destruct (nth_error (s_procs s) p) as [[i f todo]|] eqn:E; [|discriminate]. destruct f; try discriminate; injection H as <-.
    all: eapply inv_update; eauto; [discriminate|]; reflexivity.
Qed.
Lemma inv_run h : forall s s', inv s -> orderly s h -> run s h = Some s' -> inv s'.
Proof.
  induction h as [|e h IH]; intros s s' I O R; cbn [run] in R; [injection R as <-; exact I|].
  destruct (step s e) as [s1|] eqn:E; [|discriminate]. apply (IH s1 s'); [|inversion O; subst; [rewrite E in *; congruence|]|exact R].
  - apply (inv_step s e s1 I); [|exact E]. intros i Ei. inversion O; subst; [|exfalso; eapply H1; reflexivity]. injection H as <-. auto.
  - rewrite E in *. congruence.
Qed.
Lemma inv_initial d : inv (initial d).
Proof. constructor; cbn; intros [|p]; discriminate || (intros; destruct p; discriminate). Qed.

Lemma leads_fun d n p q : leads d n p -> leads d n q -> p = q.
Proof.
  intros H. revert q. induction H as [n p E|n t p E L IH]; intros q Q; inversion Q; subst; try congruence.
  apply IH. assert (t0 = t) by congruence. subst. assumption.
Qed.
(** while a daemon serves its qube, the name, the uuid and the id of the qube lead to it and to
    nothing else; whatever was left in the directory before, and whatever other daemons do *)
Theorem C101_reachable d0 h s p i todo : orderly (initial d0) h -> run (initial d0) h = Some s ->
  nth_error (s_procs s) p = Some (mkProc i Serving todo) ->
  forall n, In n ["qrexec." +++ i_name i; "qrexec.uuid:" +++ i_uuid i; "qrexec." +++ i_xid i] ->
  forall q, leads (s_dir s) n q <-> q = p.
Proof.
  intros O R E n Hn q. pose proof (inv_fact _ (inv_run _ _ _ (inv_initial d0) O R) _ _ E) as (_ & U & N & X). cbn [p_id] in *.
  assert (L : leads (s_dir s) n p).
  { destruct Hn as [<-|[<-|[<-|[]]]]; [eapply leads_link; [exact N|]|eapply leads_link; [exact U|]|]; apply leads_sock; exact X. }
  split; [intros Q; eapply leads_fun; eauto|intros ->; exact L].
Qed.
(** a daemon that creates its names succeeds: no step of it fails *)
Theorem C101_starts d0 h s p i todo : orderly (initial d0) h -> run (initial d0) h = Some s ->
  nth_error (s_procs s) p = Some (mkProc i Creating todo) ->
  exists o todo' s' f, todo = o :: todo' /\ step s (EOp p) = Some s' /\ nth_error (s_procs s') p = Some (mkProc i f todo') /\
    ((todo' = [] /\ f = Serving) \/ (todo' <> [] /\ f = Creating)).
Proof.
  intros O R E. pose proof (inv_run _ _ _ (inv_initial d0) O R) as I. pose proof (inv_fact _ I _ _ E) as F.
  destruct todo as [|o todo'].
  { exfalso. unfold fact, create in F. cbn [p_phase p_todo] in F. decompose [or and] F; discriminate. }
  destruct (op_fact _ _ _ _ _ _ (inv_usual _ I _ _ E) F ltac:(discriminate)) as (d' & X & _ & _ & _).
  exists o, todo', (update s d' p (mkProc i (match todo' with [] => Serving | _ => Creating end) todo')), (match todo' with [] => Serving | _ => Creating end).
  split; [reflexivity|]. cbn [step]. rewrite E, X. split; [destruct todo'; reflexivity|]. cbn [update s_procs]. rewrite nth_set, Nat.eqb_refl, E. split; [reflexivity|].
  destruct todo'; [left; auto|right; split; [discriminate|reflexivity]].
Qed.
(** a daemon that ends without being killed leaves nothing behind *)
Theorem C101_clean d0 h s p i todo s' : orderly (initial d0) h -> run (initial d0) h = Some s ->
  nth_error (s_procs s) p = Some (mkProc i Ending todo) -> step s (EOp p) = Some s' -> nth_error (s_procs s') p = Some (mkProc i Gone []) ->
  forall n, In n ["qrexec." +++ i_name i; "qrexec.uuid:" +++ i_uuid i; "qrexec." +++ i_xid i] -> s_dir s' n = None.
Proof.
  intros O R E S G. pose proof (inv_run _ _ _ (inv_initial d0) O R) as I. pose proof (inv_fact _ I _ _ E) as F. cbn [step] in S. rewrite E in S.
  destruct todo as [|o todo']; [discriminate|].
  destruct (op_fact _ _ _ _ _ _ (inv_usual _ I _ _ E) F ltac:(discriminate)) as (d' & X & _ & _ & C). rewrite X in S. injection S as <-.
  cbn [update s_procs s_dir] in *. rewrite nth_set, Nat.eqb_refl, E in G. cbn [option_map] in G.
  destruct todo' as [|o' todo']; [|discriminate]. destruct (C eq_refl eq_refl) as (A & B & D). intros n [<-|[<-|[<-|[]]]]; assumption.
Qed.
(** a daemon only ever changes its own names *)
Theorem C101_only_own s p i f todo s' n : nth_error (s_procs s) p = Some (mkProc i f todo) ->
  (forall o, In o todo -> In o (create i) \/ In o (remove i)) -> step s (EOp p) = Some s' ->
  ~ In n ["qrexec." +++ i_name i; "qrexec.uuid:" +++ i_uuid i; "qrexec." +++ i_xid i] -> s_dir s' n = s_dir s n.
Proof.
  intros E T S N. cbn [step] in S. rewrite E in S. destruct todo as [|o todo]; [discriminate|].
  assert (NU : n <> uuid_link i) by (intros ->; apply N; right; left; reflexivity).
  assert (NN : n <> name_link i) by (intros ->; apply N; left; reflexivity).
  assert (NX : n <> sock_name i) by (intros ->; apply N; right; right; left; reflexivity).
  assert (X : fst (exec_op (s_dir s) p o) n = s_dir s n).
  { specialize (T o (or_introl eq_refl)). unfold create, remove in T. cbn [In] in T.
    decompose [or] T; try contradiction; subst o; cbn [exec_op fst]; repeat match goal with |- context [match ?d with Some _ => _ | None => _ end] => destruct d end; cbn [fst]; rewrite ?put_other by assumption; reflexivity. }
  destruct (exec_op (s_dir s) p o) as [d [|]]; injection S as <-; exact X.
Qed.

(** ** When it is not so *)
Definition nothing : dir := fun _ => None.
Definition work5 := mkIdent "5" "work" "aa".
Definition work9 := mkIdent "9" "work" "aa".
Definition six p := repeat (EOp p) 6.
(** what a history leads to, at some names *)
Definition looks (h : list event) (ns : list string) (procs : list proc) (es : list (option entry)) : Prop :=
  option_map (fun s => (s_procs s, map (s_dir s) ns)) (run (initial nothing) h) = Some (procs, es).
Lemma looks_run h ns procs es : looks h ns procs es -> exists s, run (initial nothing) h = Some s /\ s_procs s = procs /\ map (s_dir s) ns = es.
Proof. unfold looks. destruct (run (initial nothing) h) as [s|]; cbn [option_map]; [|discriminate]. intros H. exists s. split; [reflexivity|]. split; congruence. Qed.
(** the qube was restarted, and the daemon of before notices only then that its agent is gone:
    it removes the links of the new one, which goes on but cannot be reached by name *)
Theorem C101_overlap_refuted : exists h s, run (initial nothing) h = Some s /\
  nth_error (s_procs s) 1 = Some (mkProc work9 Serving []) /\ nth_error (s_procs s) 0 = Some (mkProc work5 Waiting []) /\
  (forall q, ~ leads (s_dir s) "qrexec.work" q) /\ (forall q, ~ leads (s_dir s) "qrexec.uuid:aa" q).
Proof.
  exists (EStart work5 :: six 0 ++ EStart work9 :: six 1 ++ [ELost 0; EOp 0; EOp 0; EOp 0]).
  destruct (looks_run (EStart work5 :: six 0 ++ EStart work9 :: six 1 ++ [ELost 0; EOp 0; EOp 0; EOp 0]) ["qrexec.work"; "qrexec.uuid:aa"]
    [mkProc work5 Waiting []; mkProc work9 Serving []] [None; None]) as (s & R & P & D); [vm_compute; reflexivity|].
  exists s. split; [exact R|]. rewrite P. split; [reflexivity|]. split; [reflexivity|]. cbn [map] in D.
  split; intros q H; inversion H; subst; congruence.
Qed.
(** a qube whose name is a number takes the socket of the qube with this id *)
Theorem C101_number_refuted : exists h s, run (initial nothing) h = Some s /\
  nth_error (s_procs s) 0 = Some (mkProc work5 Serving []) /\ leads (s_dir s) "qrexec.work" 1 /\ ~ leads (s_dir s) "qrexec.work" 0.
Proof.
  exists (EStart work5 :: six 0 ++ EStart (mkIdent "9" "5" "bb") :: six 1).
  destruct (looks_run (EStart work5 :: six 0 ++ EStart (mkIdent "9" "5" "bb") :: six 1) ["qrexec.work"; "qrexec.5"; "qrexec.9"]
    [mkProc work5 Serving []; mkProc (mkIdent "9" "5" "bb") Serving []] [Some (Link "qrexec.5"); Some (Link "qrexec.9"); Some (Sock 1)]) as (s & R & P & D); [vm_compute; reflexivity|].
  exists s. split; [exact R|]. rewrite P. split; [reflexivity|]. cbn [map] in D.
  assert (L : leads (s_dir s) "qrexec.work" 1).
  { apply leads_link with (t := "qrexec.5"); [congruence|]. apply leads_link with (t := "qrexec.9"); [congruence|]. apply leads_sock. congruence. }
  split; [exact L|]. intros H. pose proof (leads_fun _ _ _ _ L H). discriminate.
Qed.

(** ** Example: a daemon is killed in the middle, and started again; another one comes and goes *)
Definition vault7 := mkIdent "7" "vault" "bb".
Definition ex_history := EStart work5 :: [EOp 0; EOp 0; EOp 0; EStart vault7; EOp 1; EOp 1; EKill 0; EStart work9; EOp 2; EOp 1; EOp 2; EOp 2; EOp 1; EOp 1; EOp 2; EOp 1; EOp 2; ELost 1; EOp 1; EOp 2].
Example ex_usual : usual work5 /\ usual work9 /\ usual vault7.
Proof.
  assert (D : forall c, has_char c "5" = true \/ has_char c "9" = true \/ has_char c "7" = true -> (48 <= nat_of_ascii c <= 57)%nat).
  { intros c H. cbn in H. destruct H as [H|[H|H]]; rewrite orb_false_r in H; apply Ascii.eqb_eq in H; subst c; vm_compute; lia. }
  split; [|split]; (split; [do 2 eexists; split; reflexivity|]); (split; [reflexivity|]); (split; [discriminate|]); cbn [i_xid work5 work9 vault7]; intros c H; apply D; tauto.
Qed.
(** [orderly], decided *)
Fixpoint differ (i : ident) (l : list proc) : bool :=
  match l with
  | [] => true
  | x :: l' => (match p_phase x with Gone => true | _ => negb (String.eqb (i_xid i) (i_xid (p_id x))) && negb (String.eqb (i_name i) (i_name (p_id x))) && negb (String.eqb (i_uuid i) (i_uuid (p_id x))) end) && differ i l'
  end.
Fixpoint check (ok : list ident) (s : state) (h : list event) : bool :=
  match h with
  | [] => true
  | e :: h' =>
      match e with EStart i => existsb (fun j => String.eqb (i_xid i) (i_xid j) && String.eqb (i_name i) (i_name j) && String.eqb (i_uuid i) (i_uuid j)) ok && differ i (s_procs s) | _ => true end &&
      match step s e with Some s' => check ok s' h' | None => false end
  end.
Lemma differ_ok i l : differ i l = true -> forall x, In x l -> alive x -> different i (p_id x).
Proof.
  induction l as [|y l IH]; cbn; intros H x I A; [destruct I|]. apply andb_true_iff in H. destruct H as [H1 H2]. destruct I as [<-|I]; [|auto].
  assert (E : negb (String.eqb (i_xid i) (i_xid (p_id y))) && negb (String.eqb (i_name i) (i_name (p_id y))) && negb (String.eqb (i_uuid i) (i_uuid (p_id y))) = true).
  { unfold alive in A. destruct (p_phase y); auto; exfalso; apply A; reflexivity. }
  apply andb_true_iff in E. destruct E as [E E3]. apply andb_true_iff in E. destruct E as [E1 E2].
  apply negb_true_iff, String.eqb_neq in E1. apply negb_true_iff, String.eqb_neq in E2. apply negb_true_iff, String.eqb_neq in E3. repeat split; assumption.
Qed.
Lemma check_orderly ok h : (forall i, In i ok -> usual i) -> forall s, check ok s h = true -> orderly s h.
Proof.
  intros Uo. induction h as [|e h IH]; intros s C; [constructor|]. cbn [check] in C. apply andb_true_iff in C. destruct C as [C1 C2].
  destruct (step s e) as [s'|] eqn:E; [|discriminate]. destruct e as [i| | | | |]; try (eapply or_other; [discriminate|exact E|auto]).
  apply andb_true_iff in C1. destruct C1 as [C0 C1]. eapply or_start; [|apply differ_ok; exact C1|exact E|auto].
  apply existsb_exists in C0. destruct C0 as (j & J & Q). apply andb_true_iff in Q. destruct Q as [Q Q3]. apply andb_true_iff in Q. destruct Q as [Q1 Q2].
  apply String.eqb_eq in Q1, Q2, Q3. replace i with j; [auto|]. destruct i, j; cbn in *; congruence.
Qed.
Lemma ex_orderly : orderly (initial nothing) ex_history.
Proof.
  destruct ex_usual as (U5 & U9 & U7). apply (check_orderly [work5; work9; vault7]); [|vm_compute; reflexivity]. intros i [<-|[<-|[<-|[]]]]; assumption.
Qed.
Example ex_reached : exists s, run (initial nothing) ex_history = Some s /\ nth_error (s_procs s) 2 = Some (mkProc work9 Serving []) /\ forall q, leads (s_dir s) "qrexec.work" q <-> q = 2.
Proof.
  destruct (run (initial nothing) ex_history) as [s|] eqn:R; [|exfalso; apply (f_equal (fun o => match o with Some _ => true | None => false end)) in R; vm_compute in R; discriminate R].
  exists s. split; [reflexivity|]. assert (N : nth_error (s_procs s) 2 = Some (mkProc work9 Serving [])).
  { assert (X : option_map (fun s => nth_error (s_procs s) 2) (run (initial nothing) ex_history) = Some (Some (mkProc work9 Serving []))) by (vm_compute; reflexivity).
    rewrite R in X. cbn [option_map] in X. congruence. }
  split; [exact N|]. intros q. apply (C101_reachable nothing ex_history s 2 work9 [] ex_orderly R N). left. reflexivity.
Qed.

(** ** Without any condition on the order of events: several daemons may start for the same qube at
    the same time *)
Definition on_its_way (x : proc) : Prop :=
  p_phase x = Creating -> p_todo x <> [] /\ exists pre, create (p_id x) = pre ++ p_todo x.
Lemma way_step s e s' : (forall x, In x (s_procs s) -> on_its_way x) -> step s e = Some s' -> forall x, In x (s_procs s') -> on_its_way x.
Proof.
  intros I E.
  assert (S : forall d p y, on_its_way y -> forall x, In x (s_procs (update s d p y)) -> on_its_way x).
  { intros d p y Y x X. apply In_nth_error in X. destruct X as [m X]. cbn [update s_procs] in X. rewrite nth_set in X.
    destruct (Nat.eqb m p); [|apply I; eapply nth_error_In; exact X].
    destruct (nth_error (s_procs s) p); cbn in X; [|discriminate]. assert (y = x) by congruence. subst y. exact Y. }
  assert (W : forall i f t, f <> Creating -> on_its_way (mkProc i f t)) by (intros i f t F C; cbn in C; contradiction).
  assert (N : forall i, on_its_way (mkProc i Creating (create i))).
  { intros i _. cbn [p_todo p_id]. split; [unfold create; discriminate|]. exists []. reflexivity. }
  destruct e as [i|p|p|p|p|p]; cbn [step] in E.
  - assert (E' : s' = mkState (s_dir s) (s_procs s ++ [mkProc i Creating (create i)])) by congruence. subst s'. cbn [s_procs].
    intros x X. apply in_app_iff in X. destruct X as [X|[<-|[]]]; auto.
  - destruct (nth_error (s_procs s) p) as [[i f [|o todo]]|] eqn:P; try discriminate.
    destruct (exec_op (s_dir s) p o) as [d ok]. destruct ok.
    + assert (E' : s' = update s d p (mkProc i (match todo with [] => next_phase f | _ => f end) todo)) by congruence. subst s'.
      apply S. intros C. cbn [p_phase p_todo p_id] in *. destruct todo as [|o' todo].
      * destruct f; cbn in C; try discriminate C; exfalso; discriminate C.
      * split; [discriminate|]. subst f. destruct (I (mkProc i Creating (o :: o' :: todo))) as [_ [pre Q]]; [eapply nth_error_In; exact P|reflexivity|].
        cbn [p_todo p_id] in Q. exists (pre ++ [o]). rewrite <- app_assoc. exact Q.
    + assert (E' : s' = update s d p (mkProc i Ending (remove i))) by congruence. subst s'. apply S, W. discriminate.
  - destruct (nth_error (s_procs s) p) as [[i f todo]|]; [|discriminate]. destruct f; try discriminate.
    assert (E' : s' = update s (s_dir s) p (mkProc i Leaving (remove i))) by congruence. subst s'. apply S, W. discriminate.
  - destruct (nth_error (s_procs s) p) as [[i f todo]|]; [|discriminate]. destruct f; try discriminate.
    assert (E' : s' = update s (s_dir s) p (mkProc i Creating (create i))) by congruence. subst s'. apply S, N.
  - destruct (nth_error (s_procs s) p) as [[i f todo]|]; [|discriminate].
    assert (E' : s' = update s (s_dir s) p (mkProc i Ending (remove i))) by (destruct f; congruence). subst s'. apply S, W. discriminate.
  - destruct (nth_error (s_procs s) p) as [[i f todo]|]; [|discriminate].
    assert (E' : s' = update s (s_dir s) p (mkProc i Gone [])) by (destruct f; congruence). subst s'. apply S, W. discriminate.
Qed.
Lemma way_run h : forall s s', (forall x, In x (s_procs s) -> on_its_way x) -> run s h = Some s' -> forall x, In x (s_procs s') -> on_its_way x.
Proof.
  induction h as [|e h IH]; intros s s' I R; cbn [run] in R; [assert (s' = s) by congruence; subst; exact I|].
  destruct (step s e) as [s1|] eqn:E; [|discriminate]. eapply IH; [|exact R]. eapply way_step; eassumption.
Qed.
Lemma last_of {A} (pre : list A) x l y : pre ++ [x] = l ++ [y] -> x = y.
Proof. intros H. apply app_inj_tail in H. exact (proj2 H). Qed.

Theorem C101_race d0 h s p i todo s' j f t :
  run (initial d0) h = Some s ->
  nth_error (s_procs s) p = Some (mkProc i Creating todo) ->
  step s (EOp p) = Some s' ->
  nth_error (s_procs s') p = Some (mkProc j f t) ->
  let socket := "qrexec." +++ i_xid i in
  (f = Creating /\ t <> []) \/
  (f = Serving /\ s_dir s' socket = Some (Sock p)) \/
  (f = Ending /\ (exists e, s_dir s socket = Some e) /\ s_dir s' = s_dir s).
Proof.
  intros R P E P' socket.
  assert (W : on_its_way (mkProc i Creating todo)).
  { eapply (way_run h (initial d0)); [intros x []|exact R|]. eapply nth_error_In. exact P. }
  destruct (W eq_refl) as [_ [pre Q]]. cbn [p_todo p_id] in Q.
  cbn [step] in E. rewrite P in E. destruct todo as [|o todo]; [discriminate|].
  assert (B : todo = [] -> o = Bind (sock_name i)).
  { intros ->. unfold create in Q. symmetry in Q.
    apply (last_of pre o [Unlink (uuid_link i); Symlink (sock_name i) (uuid_link i); Unlink (name_link i); Symlink (sock_name i) (name_link i); Unlink (sock_name i)] (Bind (sock_name i))). exact Q. }
  assert (C : o = Bind (sock_name i) \/ exists d, exec_op (s_dir s) p o = (d, true)).
  { assert (O : In o (create i)) by (rewrite Q; apply in_or_app; right; left; reflexivity).
    destruct O as [<-|[<-|[<-|[<-|[<-|[<-|[]]]]]]]; cbn [exec_op]; try (right; eexists; reflexivity); try (left; reflexivity).
    - right. destruct (s_dir s (uuid_link i)); eexists; reflexivity.
    - right. destruct (s_dir s (name_link i)); eexists; reflexivity. }
  assert (F : forall d x, s' = update s d p x -> nth_error (s_procs s') p = Some x).
  { intros d x ->. cbn [update s_procs]. rewrite nth_set, Nat.eqb_refl, P. reflexivity. }
  destruct (exec_op (s_dir s) p o) as [d ok] eqn:X. destruct ok.
  - destruct todo as [|o' todo].
    + right. left. assert (E' : s' = update s d p (mkProc i Serving [])) by (cbn in E; congruence).
      pose proof (F _ _ E') as Y. split; [congruence|]. subst s'. cbn [update s_dir].
      rewrite (B eq_refl) in X. cbn [exec_op] in X. destruct (s_dir s (sock_name i)) eqn:D; [discriminate|].
      assert (d = put (s_dir s) (sock_name i) (Some (Sock p))) by congruence. subst d. apply put_same.
    + left. assert (E' : s' = update s d p (mkProc i Creating (o' :: todo))) by (cbn in E; congruence).
      pose proof (F _ _ E') as Y. split; [congruence|]. assert (t = o' :: todo) by congruence. subst t. discriminate.
  - right. right. assert (E' : s' = update s d p (mkProc i Ending (remove i))) by congruence.
    pose proof (F _ _ E') as Y. split; [congruence|]. destruct C as [->|[d' C]]; [|congruence].
    cbn [exec_op] in X. destruct (s_dir s (sock_name i)) as [e|] eqn:D; [|discriminate].
    split; [exists e; exact D|]. subst s'. cbn [update s_dir]. congruence.
Qed.
(** two daemons for the same qube number, one step after the other: both come to bind, one of them
    gets the name, the other ends *)
Example ex_race :
  let h := EStart work5 :: EStart work5 :: [EOp 0; EOp 1; EOp 0; EOp 1; EOp 0; EOp 1; EOp 0; EOp 1; EOp 0; EOp 1; EOp 0; EOp 1] in
  looks h ["qrexec.5"] [mkProc work5 Serving []; mkProc work5 Ending (remove work5)] [Some (Sock 0)].
Proof. vm_compute. reflexivity. Qed.
