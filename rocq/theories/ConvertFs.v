(** What the conversion does to the files. *)
From Coq Require Import String Ascii List Bool Arith Lia.
From Verif Require Import Base SysInfo Token Rule FileSys Loader SpecLoader LineLoader SelectProofs AdminProofs Graph Convert SpecConvert.
Import ListNotations.
Open Scope string_scope.
Open Scope list_scope.

Lemma path_eqb_spec p q : path_eqb p q = true <-> p = q.
Proof. unfold path_eqb. destruct (list_eq_dec string_dec p q); intuition congruence. Qed.
Lemma fget_keys f p : fget f p <> None -> In p (map fst f).
Proof.
  induction f as [|[q n] f IH]; cbn; [congruence|]. destruct (path_eqb p q) eqn:E; [apply path_eqb_spec in E; auto|]. intros H. right. auto.
Qed.

(** ** A free name is found *)
Fixpoint tried (fuel : nat) (name suffix : string) : list string :=
  match fuel with 0 => [] | S n => name :: tried n (name +++ suffix) suffix end.
Lemma tried_longer n : forall name suffix x, In x (tried n name suffix) -> String.length name <= String.length x.
Proof.
  induction n as [|n IH]; intros name suffix x H; [destruct H|]. destruct H as [<-|H]; [lia|].
  apply IH in H. rewrite length_app_s in H. lia.
Qed.
Lemma tried_NoDup n : forall name suffix, suffix <> "" -> NoDup (tried n name suffix).
Proof.
  induction n as [|n IH]; intros name suffix N; [constructor|]. cbn [tried]. constructor; [|apply IH; exact N].
  intros H. apply tried_longer in H. rewrite length_app_s in H. destruct suffix; [congruence|]. cbn [String.length] in H. lia.
Qed.
Lemma free_name_tried f d suffix : forall n name,
  exists_path f (d ++ [free_name n f d name suffix]) = false \/
  (forall x, In x (tried n name suffix) -> exists_path f (d ++ [x]) = true).
Proof.
  induction n as [|n IH]; intros name; [right; intros x H; destruct H|]. cbn [free_name tried].
  destruct (exists_path f (d ++ [name])) eqn:E; [|left; exact E].
  destruct (IH (name +++ suffix)) as [H|H]; [left; exact H|]. right. intros x [<-|K]; auto.
Qed.
Lemma free_name_free f d name suffix : suffix <> "" ->
  fget f (d ++ [free_name (S (length f)) f d name suffix]) = None.
Proof.
  intros N. assert (X : exists_path f (d ++ [free_name (S (length f)) f d name suffix]) = false).
  { destruct (free_name_tried f d suffix (S (length f)) name) as [H|H]; [exact H|]. exfalso.
    assert (L : length (map (fun x => d ++ [x]) (tried (S (length f)) name suffix)) <= length (map fst f)).
    { apply NoDup_incl_length.
      - apply FinFun.Injective_map_NoDup; [|apply tried_NoDup; exact N]. intros x y E. apply app_inv_head in E. congruence.
      - intros p Hp. apply in_map_iff in Hp as (x & <- & Hx). apply H in Hx. apply fget_keys. unfold exists_path in Hx.
        destruct (fget f (d ++ [x])); [discriminate|discriminate]. }
    rewrite !map_length in L. assert (T : forall n nm, length (tried n nm suffix) = n) by (induction n; intros; cbn; auto). rewrite T in L. lia. }
  unfold exists_path in X. destruct (fget f _); [discriminate|reflexivity].
Qed.
Lemma free_name_shape f d suffix (P : string -> Prop) : (forall x, P x -> P (x +++ suffix)) -> forall n name, P name -> P (free_name n f d name suffix).
Proof. intros S. induction n as [|n IH]; intros name H; cbn [free_name]; [exact H|]. destruct (exists_path _ _); auto. Qed.
Lemma backup_free f d name suffix : suffix <> "" -> fget f (d ++ [backup_name f d name suffix]) = None.
Proof. intros N. apply free_name_free. exact N. Qed.
Lemma backup_aside f d name suffix p : suffix = ".bak" \/ suffix = ".rpmsave" -> aside p (d ++ [name]) -> aside p (d ++ [backup_name f d name suffix]).
Proof.
  intros S A. unfold backup_name. apply (free_name_shape f d suffix (fun x => aside p (d ++ [x]))); [|apply as_more; assumption].
  intros x H. apply as_more; assumption.
Qed.
Lemma backup_ends f d name suffix : exists x, backup_name f d name suffix = x +++ suffix.
Proof. apply (free_name_shape f d suffix (fun x => exists y, x = y +++ suffix)); eauto. Qed.

(** ** Nothing is lost *)
Record kept (f0 f : fs) (m : path -> path) : Prop := {
  k_there : forall p n, fget f0 p = Some n -> fget f (m p) = Some n;
  k_inj : forall p q, fget f0 p <> None -> fget f0 q <> None -> m p = m q -> p = q;
  k_aside : forall p, fget f0 p <> None -> aside p (m p) }.
Lemma kept_all f0 f m : kept f0 f m -> all_there f0 f.
Proof. intros [A B C]. exists m. auto. Qed.
Definition unused (f0 : fs) (m : path -> path) (p : path) : Prop := forall q, fget f0 q <> None -> m q <> p.
Lemma kept_here f0 f m q : kept f0 f m -> fget f0 q <> None -> fget f (m q) <> None.
Proof. intros K H. destruct (fget f0 q) as [n|] eqn:E; [|congruence]. rewrite (k_there _ _ _ K q n E). discriminate. Qed.
Lemma unused_new f0 f m p : kept f0 f m -> fget f p = None -> unused f0 m p.
Proof. intros K N q H E. apply (kept_here _ _ _ _ K) in H. congruence. Qed.
Lemma kept_write f0 f m p n : kept f0 f m -> unused f0 m p -> kept f0 (fset f p n) m.
Proof.
  intros K U. constructor; [|apply K|apply K]. intros q x H. rewrite fget_fset_other; [apply (k_there _ _ _ K); exact H|].
  apply U. congruence.
Qed.
Lemma kept_del f0 f m p : kept f0 f m -> unused f0 m p -> kept f0 (fdel f p) m.
Proof.
  intros K U. constructor; [|apply K|apply K]. intros q x H. rewrite fget_fdel_other; [apply (k_there _ _ _ K); exact H|].
  apply U. congruence.
Qed.
Definition redirect_path (m : path -> path) (p p' : path) (q : path) : path := if path_eqb (m q) p then p' else m q.
Lemma redirect_hit m p p' q : m q = p -> redirect_path m p p' q = p'.
Proof. intros E. unfold redirect_path. apply path_eqb_spec in E. now rewrite E. Qed.
Lemma redirect_miss m p p' q : m q <> p -> redirect_path m p p' q = m q.
Proof. intros E. unfold redirect_path. destruct (path_eqb (m q) p) eqn:X; [apply path_eqb_spec in X; congruence|reflexivity]. Qed.
(** the same content is at p' *)
Lemma kept_copied f0 f m p p' : kept f0 f m -> unused f0 m p' -> fget f p' = fget f p -> (forall q, fget f0 q <> None -> aside q p -> aside q p') ->
  kept f0 f (redirect_path m p p').
Proof.
  intros K U E A. constructor.
  - intros q n H. destruct (list_eq_dec string_dec (m q) p) as [X|X].
    + rewrite redirect_hit by exact X. rewrite E, <- X. exact (k_there _ _ _ K q n H).
    + rewrite redirect_miss by exact X. exact (k_there _ _ _ K q n H).
  - intros q r Hq Hr X. destruct (list_eq_dec string_dec (m q) p) as [Y|Y], (list_eq_dec string_dec (m r) p) as [Z|Z].
    + apply (k_inj _ _ _ K); congruence.
    + rewrite (redirect_hit m p p' q Y), (redirect_miss m p p' r Z) in X. destruct (U r Hr (eq_sym X)).
    + rewrite (redirect_miss m p p' q Y), (redirect_hit m p p' r Z) in X. destruct (U q Hq X).
    + rewrite !redirect_miss in X by assumption. apply (k_inj _ _ _ K); assumption.
  - intros q Hq. destruct (list_eq_dec string_dec (m q) p) as [Y|Y].
    + rewrite redirect_hit by exact Y. apply A; [exact Hq|]. rewrite <- Y. apply (k_aside _ _ _ K). exact Hq.
    + rewrite redirect_miss by exact Y. apply (k_aside _ _ _ K). exact Hq.
Qed.
Lemma redirect_unused f0 m p p' : p <> p' -> unused f0 (redirect_path m p p') p.
Proof.
  intros N q Hq E. destruct (list_eq_dec string_dec (m q) p) as [Y|Y]; [rewrite redirect_hit in E by exact Y; congruence|].
  rewrite redirect_miss in E by exact Y. congruence.
Qed.
(** rename *)
Lemma kept_rename f0 f m p p' n : kept f0 f m -> unused f0 m p' -> fget f p = Some n -> (forall q, fget f0 q <> None -> aside q p -> aside q p') ->
  p <> p' -> kept f0 (fset (fdel f p) p' n) (redirect_path m p p').
Proof.
  intros K U E A N.
  assert (K1 : kept f0 (fset f p' n) m) by (apply kept_write; assumption).
  assert (K2 : kept f0 (fset f p' n) (redirect_path m p p')).
  { apply kept_copied; [exact K1|exact U| |exact A]. rewrite fget_fset, fget_fset_other by exact N. congruence. }
  constructor; [|apply K2|apply K2]. intros q x H. pose proof (k_there _ _ _ K2 q x H) as T.
  pose proof (redirect_unused f0 m p p' N q) as R. assert (X : redirect_path m p p' q <> p) by (apply R; congruence).
  destruct (list_eq_dec string_dec (redirect_path m p p' q) p') as [Y|Y].
  - rewrite Y in *. rewrite fget_fset in *. exact T.
  - rewrite fget_fset_other in * by exact Y. rewrite fget_fdel_other by exact X. exact T.
Qed.

(** *** every state on the way *)
Definition safe (f0 f : fs) (ops : list op) : Prop := forall f', stopped f ops f' -> all_there f0 f'.
Lemma safe_nil f0 f : all_there f0 f -> safe f0 f [].
Proof. intros A f' S. inversion S; subst. exact A. Qed.
Lemma safe_cons f0 f o ops : (forall f', stopped f [o] f' -> all_there f0 f') -> safe f0 (apply_op f o) ops -> safe f0 f (o :: ops).
Proof. intros A B f' S. inversion S; subst; [apply A; constructor|apply A; apply st_writing|apply B; assumption]. Qed.
Lemma safe_app f0 ops' : forall ops f, safe f0 f ops -> safe f0 (fold_left apply_op ops f) ops' -> safe f0 f (ops ++ ops').
Proof.
  induction ops as [|o ops IH]; intros f A B; [exact B|]. cbn [app]. apply safe_cons.
  - intros f' S. apply A. inversion S as [| |? ? ? ? X]; subst; [constructor|apply st_writing|]. apply st_next. inversion X; subst. constructor.
  - apply IH; [|exact B]. intros f' S. apply A. apply st_next. exact S.
Qed.
Lemma safe_write f0 f m p c ops : kept f0 f m -> unused f0 m p -> safe f0 (fset f p (NFile (Some c))) ops -> safe f0 f (OWrite p c :: ops).
Proof.
  intros K U B. apply safe_cons; [|exact B]. intros f' S. inversion S as [| |? ? ? ? X]; subst.
  - apply (kept_all _ _ _ K).
  - eapply kept_all. apply kept_write; eassumption.
  - inversion X; subst. eapply kept_all. apply kept_write; eassumption.
Qed.
Lemma stopped_other f o f' : (forall p c, o <> OWrite p c) -> stopped f [o] f' -> f' = f \/ f' = apply_op f o.
Proof.
  intros N S. inversion S as [|? p c|? ? ? ? X]; subst; [left; reflexivity|destruct (N p c eq_refl)|]. inversion X; subst. right. reflexivity.
Qed.
Lemma safe_rename f0 f m p p' n ops : kept f0 f m -> unused f0 m p' -> fget f p = Some n -> (forall q, fget f0 q <> None -> aside q p -> aside q p') ->
  p <> p' -> safe f0 (fset (fdel f p) p' n) ops -> safe f0 f (ORename p p' :: ops).
Proof.
  intros K U E A N B. apply safe_cons; [|cbn [apply_op]; rewrite E; exact B]. intros f' S.
  apply stopped_other in S as [-> | ->]; [apply (kept_all _ _ _ K)| |discriminate]. cbn [apply_op]. rewrite E.
  eapply kept_all. apply kept_rename; eassumption.
Qed.
Lemma safe_unlink f0 f m p ops : kept f0 f m -> unused f0 m p -> safe f0 (fdel f p) ops -> safe f0 f (OUnlink p :: ops).
Proof.
  intros K U B. apply safe_cons; [|exact B]. intros f' S.
  apply stopped_other in S as [-> | ->]; [apply (kept_all _ _ _ K)| |discriminate].
  eapply kept_all. apply kept_del; eassumption.
Qed.

(** *** one file *)
(** what the list of backups says: the names are those of a policy file and of its backup,
    nothing is at the former, and what is at the latter came from there *)
Definition backed (f0 f : fs) (m : path -> path) (x : path * path) : Prop :=
  fget f (snd x) <> None /\ (exists a, fst x = POLICYPATH ++ [a +++ ".policy"]) /\ (exists b, snd x = POLICYPATH ++ [b +++ ".bak"]) /\
  unused f0 m (fst x) /\ (forall q, fget f0 q <> None -> m q = snd x -> aside q (fst x)).
Lemma last_char_bak a b : a +++ ".policy" <> b +++ ".bak".
Proof.
  intros E. apply (f_equal (fun s => String.get (String.length s - 1) s)) in E.
  assert (G : forall x y c, String.get (String.length (x +++ y +++ str1 c) - 1) (x +++ y +++ str1 c) = Some c).
  { intros x y c. rewrite <- app_assoc_s. generalize (x +++ y). clear. intros s. rewrite length_app_s. cbn [str1 String.length]. replace (String.length s + 1 - 1) with (String.length s) by lia.
    induction s as [|d s IH]; [reflexivity|exact IH]. }
  change ".policy" with (".polic" +++ str1 "y") in E. change ".bak" with (".ba" +++ str1 "k") in E. rewrite !G in E. discriminate.
Qed.
Lemma save_one_safe f0 f m fn rules ops r : kept f0 f m -> save_one f fn rules = (ops, r) ->
  safe f0 f ops /\ forall b, r = Ok b -> exists m', kept f0 (fold_left apply_op ops f) m' /\
    (forall x, In x b -> fst x = POLICYPATH ++ [fn +++ ".policy"] /\ backed f0 (fold_left apply_op ops f) m' x) /\
    (forall x, backed f0 f m x -> fst x <> POLICYPATH ++ [fn +++ ".policy"] -> backed f0 (fold_left apply_op ops f) m' x).
Proof.
  intros K E. unfold save_one in E. destruct rules as [|r0 rules].
  { injection E as <- <-. split; [apply safe_nil; apply (kept_all _ _ _ K)|]. intros b [= <-]. exists m. split; [exact K|]. split; [intros x []|auto]. }
  set (file := POLICYPATH ++ [fn +++ ".policy"]) in *. set (text := new_text fn (r0 :: rules)) in *.
  destruct (exists_path f file) eqn:Ex.
  2:{ unfold exists_path in Ex. assert (Nf : fget f file = None) by (destruct (fget f file); [discriminate|reflexivity]).
      assert (U : unused f0 m file) by (eapply unused_new; eassumption).
      injection E as <- <-. split.
      - eapply safe_write; [exact K|exact U|]. eapply safe_write; [apply kept_write; eassumption|exact U|].
        apply safe_nil. eapply kept_all. apply kept_write; [apply kept_write; eassumption|exact U].
      - intros b [= <-]. exists m. split; [apply kept_write; [apply kept_write; eassumption|exact U]|]. split; [intros x []|].
        intros x (X0 & X) _. split; [|exact X]. cbn [fold_left apply_op].
        rewrite !fget_fset_other by (intros Z; rewrite Z in X0; congruence). exact X0. }
  set (bn := backup_name f POLICYPATH (fn +++ ".policy") ".bak") in *. set (backup := POLICYPATH ++ [bn]) in *.
  assert (Nb : fget f backup = None) by (apply backup_free; discriminate).
  assert (Ub : unused f0 m backup) by (eapply unused_new; eassumption).
  destruct (fget f file) as [[[c|]| |]|] eqn:Gf; try (injection E as <- <-; split; [apply safe_nil; apply (kept_all _ _ _ K)|discriminate]).
  assert (Nbf : file <> backup) by congruence.
  set (f1 := fset (fset f backup (NFile (Some ""))) backup (NFile (Some c))).
  assert (K1 : kept f0 f1 m) by (apply kept_write; [apply kept_write|]; assumption).
  assert (As : forall q, fget f0 q <> None -> aside q file -> aside q backup) by (intros q _; apply backup_aside; left; reflexivity).
  set (m' := redirect_path m file backup).
  assert (K2 : kept f0 f1 m').
  { apply kept_copied; [exact K1|exact Ub| |exact As]. unfold f1. rewrite fget_fset, !fget_fset_other by exact Nbf. congruence. }
  assert (U2 : unused f0 m' file) by (apply redirect_unused; exact Nbf).
  assert (Copy : forall t, safe f0 f ([OWrite backup ""; OWrite backup c] ++ [OWrite file ""; OWrite file t])).
  { intros t. cbn [app]. eapply safe_write; [exact K|exact Ub|]. eapply safe_write; [apply kept_write; eassumption|exact Ub|].
    fold f1. eapply safe_write; [exact K2|exact U2|]. eapply safe_write; [apply kept_write; eassumption|exact U2|].
    apply safe_nil. eapply kept_all. apply kept_write; [apply kept_write; eassumption|exact U2]. }
  assert (Done : forall t b, b = [(file, backup)] ->
    let f' := fold_left apply_op ([OWrite backup ""; OWrite backup c] ++ [OWrite file ""; OWrite file t]) f in
    exists m', kept f0 f' m' /\ (forall x, In x b -> fst x = file /\ backed f0 f' m' x) /\
    (forall x, backed f0 f m x -> fst x <> file -> backed f0 f' m' x)).
  { intros t b -> f'. exists m'. split; [unfold f'; cbn [app fold_left apply_op]; fold f1; apply kept_write; [apply kept_write; assumption|exact U2]|].
    assert (Old : forall p, p <> file -> fget f p <> None \/ p = backup -> fget f' p <> None).
    { intros p Np H. unfold f'. cbn [app fold_left apply_op]. rewrite !(fget_fset_other _ file) by exact Np.
      destruct (list_eq_dec string_dec p backup) as [->|Y]; [rewrite fget_fset; discriminate|]. rewrite !fget_fset_other by exact Y. tauto. }
    split.
    - intros x [<-|[]]. split; [reflexivity|]. split; [apply Old; cbn [snd]; [congruence|right; reflexivity]|]. split; [exists fn; reflexivity|]. split; [|split; [exact U2|]].
      + destruct (backup_ends f POLICYPATH (fn +++ ".policy") ".bak") as [y Hy]. exists y. cbn [snd]. unfold backup, bn. now rewrite Hy.
      + cbn [fst snd]. intros q Hq Hm. destruct (list_eq_dec string_dec (m q) file) as [Y|Y].
        * rewrite <- Y. apply (k_aside _ _ _ K). exact Hq.
        * unfold m' in Hm. rewrite redirect_miss in Hm by exact Y. destruct (Ub q Hq Hm).
    - intros x (X0 & X1 & X2 & X3 & X4) Nx. split; [|split; [exact X1|split; [exact X2|split]]].
      + apply Old; [|left; exact X0]. destruct X2 as [y X2]. rewrite X2. unfold file. intros Z. apply app_inv_head in Z. injection Z as Z.
        exact (last_char_bak fn y (eq_sym Z)).
      + intros q Hq Hm. destruct (list_eq_dec string_dec (m q) file) as [Y|Y]; unfold m' in Hm.
        * rewrite redirect_hit in Hm by exact Y. destruct X1 as [a Xa]. destruct (backup_ends f POLICYPATH (fn +++ ".policy") ".bak") as [y Hy].
          rewrite <- Hm in Xa. unfold backup, bn in Xa. apply app_inv_head in Xa. injection Xa as Xa. rewrite Hy in Xa. exact (last_char_bak a y (eq_sym Xa)).
        * rewrite redirect_miss in Hm by exact Y. exact (X3 q Hq Hm).
      + intros q Hq Hm. destruct (list_eq_dec string_dec (m q) file) as [Y|Y]; unfold m' in Hm.
        * rewrite redirect_hit in Hm by exact Y. congruence.
        * rewrite redirect_miss in Hm by exact Y. exact (X4 q Hq Hm). }
  destruct (String.eqb fn INPUT_FILE).
  - injection E as <- <-. split; [apply Copy|]. intros b [= <-]. exact (Done text _ eq_refl).
  - destruct (read_text f file) as [cur|e].
    + injection E as <- <-. split; [apply Copy|]. intros b [= <-]. exact (Done _ _ eq_refl).
    + injection E as <- <-. split; [|discriminate]. cbn [app]. eapply safe_write; [exact K|exact Ub|].
      eapply safe_write; [apply kept_write; eassumption|exact Ub|]. apply safe_nil. eapply kept_all. exact K1.
Qed.

Lemma app_inj_r a b c : a +++ c = b +++ c -> a = b.
Proof.
  revert b. induction a as [|x a IH]; intros [|y b] E; cbn [String.append] in E; [reflexivity| | |].
  - apply (f_equal String.length) in E. cbn [String.length] in E. rewrite length_app_s in E. lia.
  - apply (f_equal String.length) in E. cbn [String.length] in E. rewrite length_app_s in E. lia.
  - injection E as -> E. f_equal. apply IH. exact E.
Qed.
(** saving writes, to a new name for each backup *)
Definition is_write (o : op) : Prop := exists p c, o = OWrite p c.
Lemma writes_mono ops : Forall is_write ops -> forall f p, fget f p <> None -> fget (fold_left apply_op ops f) p <> None.
Proof.
  intros F. induction F as [|o ops (q & c & ->) F IH]; intros f p H; [exact H|]. cbn [fold_left apply_op]. apply IH.
  destruct (list_eq_dec string_dec p q) as [->|N]; [rewrite fget_fset; discriminate|]. rewrite fget_fset_other by exact N. exact H.
Qed.
Lemma save_one_writes f fn rs ops r : save_one f fn rs = (ops, r) -> Forall is_write ops /\
  forall b, r = Ok b -> forall x, In x b -> fget f (snd x) = None /\ fget (fold_left apply_op ops f) (snd x) <> None.
Proof.
  assert (W : forall p c, is_write (OWrite p c)) by (unfold is_write; eauto).
  unfold save_one. destruct rs as [|r0 rs]; [intros [= <- <-]; split; [constructor|intros b [= <-] x []]|].
  destruct (exists_path _ _); [|intros [= <- <-]; split; [repeat constructor; apply W|intros b [= <-] x []]].
  destruct (fget f (POLICYPATH ++ [fn +++ ".policy"])) as [[[c|]| |]|] eqn:Gf; try (intros [= <- <-]; split; [constructor|discriminate]).
  set (backup := POLICYPATH ++ [backup_name f POLICYPATH (fn +++ ".policy") ".bak"]).
  assert (Nb : fget f backup = None) by (apply backup_free; discriminate).
  assert (Fin : forall t, let ops := [OWrite backup ""; OWrite backup c] ++ [OWrite (POLICYPATH ++ [fn +++ ".policy"]) ""; OWrite (POLICYPATH ++ [fn +++ ".policy"]) t] in
    Forall is_write ops /\ fget (fold_left apply_op ops f) backup <> None).
  { intros t ops0. split; [repeat constructor; apply W|]. unfold ops0. rewrite fold_left_app. apply writes_mono; [repeat constructor; apply W|].
    cbn [fold_left apply_op]. rewrite fget_fset. discriminate. }
  destruct (String.eqb fn INPUT_FILE).
  - intros [= <- <-]. destruct (Fin (new_text fn (r0 :: rs))) as [F1 F2]. split; [exact F1|]. intros b [= <-] x [<-|[]]. auto.
  - destruct (read_text _ _) as [cur|].
    + intros [= <- <-]. destruct (Fin (merged (new_text fn (r0 :: rs)) (univ_nl cur))) as [F1 F2]. split; [exact F1|]. intros b [= <-] x [<-|[]]. auto.
    + intros [= <- <-]. split; [repeat constructor; apply W|discriminate].
Qed.
Lemma save_one_length f fn rs ops b : save_one f fn rs = (ops, Ok b) -> length b <= 1.
Proof.
  unfold save_one. intros E1. destruct rs; [injection E1 as _ <-; cbn; lia|].
  destruct (exists_path _ _); [|injection E1 as _ <-; cbn; lia].
  destruct (fget _ _) as [[[?|]| |]|]; try discriminate. destruct (String.eqb _ _); [injection E1 as _ <-; cbn; lia|].
  destruct (read_text _ _); [injection E1 as _ <-; cbn; lia|discriminate].
Qed.
Lemma save_all_writes : forall l f ops r, save_all f l = (ops, r) -> Forall is_write ops /\
  forall b, r = Ok b -> NoDup (map snd b) /\ forall x, In x b -> fget f (snd x) = None.
Proof.
  induction l as [|[fn rs] l IH]; intros f ops r E; cbn [save_all] in E.
  { injection E as <- <-. split; [constructor|]. intros b [= <-]. split; [constructor|intros x []]. }
  destruct (save_one f fn rs) as [ops1 r1] eqn:E1. destruct (save_one_writes f fn rs ops1 r1 E1) as [W1 R1].
  destruct r1 as [b1|e]; [|injection E as <- <-; split; [exact W1|discriminate]].
  destruct (save_all (fold_left apply_op ops1 f) l) as [ops2 r2] eqn:E2. destruct (IH _ _ _ E2) as [W2 R2].
  assert (Es : ops = ops1 ++ ops2) by (destruct r2; congruence). subst ops. split; [apply Forall_app; auto|].
  intros b ->. destruct r2 as [b2|]; [|discriminate]. assert (b = b1 ++ b2) as -> by congruence.
  destruct (R2 b2 eq_refl) as [D2 N2]. apply save_one_length in E1. split.
  - rewrite map_app. destruct b1 as [|x [|y b1]]; [exact D2| |cbn in E1; lia]. cbn [map app]. constructor; [|exact D2].
    intros X. apply in_map_iff in X as (y & Hy & Iy). apply N2 in Iy. destruct (R1 _ eq_refl x (or_introl eq_refl)) as [_ X]. congruence.
  - intros x Hx. apply in_app_or in Hx as [Hx|Hx]; [exact (proj1 (R1 _ eq_refl x Hx))|]. apply N2 in Hx.
    destruct (fget f (snd x)) eqn:G; [|reflexivity]. exfalso. revert Hx. apply writes_mono; [exact W1|congruence].
Qed.

Lemma save_all_safe f0 : forall l f m ops r, NoDup (map fst l) -> kept f0 f m -> save_all f l = (ops, r) ->
  safe f0 f ops /\ forall b, r = Ok b -> exists m', kept f0 (fold_left apply_op ops f) m' /\
    NoDup (map fst b) /\ (forall x, In x b -> exists fn, In fn (map fst l) /\ fst x = POLICYPATH ++ [fn +++ ".policy"]) /\
    (forall x, In x b -> backed f0 (fold_left apply_op ops f) m' x) /\
    (forall x, backed f0 f m x -> (forall fn, In fn (map fst l) -> fst x <> POLICYPATH ++ [fn +++ ".policy"]) -> backed f0 (fold_left apply_op ops f) m' x).
Proof.
  induction l as [|[fn rs] l IH]; intros f m ops r D K E; cbn [save_all] in E.
  { injection E as <- <-. split; [apply safe_nil; apply (kept_all _ _ _ K)|]. intros b [= <-]. exists m. split; [exact K|].
    split; [constructor|]. split; [intros x []|]. split; [intros x []|auto]. }
  cbn [map fst] in D. inversion D as [|? ? Nf D']; subst.
  destruct (save_one f fn rs) as [ops1 r1] eqn:E1. destruct (save_one_safe f0 f m fn rs ops1 r1 K E1) as [S1 R1].
  destruct r1 as [b1|e]; [|injection E as <- <-; split; [exact S1|discriminate]].
  destruct (R1 b1 eq_refl) as (m1 & K1 & B1 & P1).
  destruct (save_all (fold_left apply_op ops1 f) l) as [ops2 r2] eqn:E2.
  destruct (IH _ m1 ops2 r2 D' K1 E2) as [S2 R2].
  assert (Es : ops = ops1 ++ ops2) by (destruct r2; congruence). subst ops. split; [apply safe_app; assumption|].
  intros b ->. destruct r2 as [b2|]; [|discriminate]. assert (b = b1 ++ b2) as -> by congruence.
  destruct (R2 b2 eq_refl) as (m2 & K2 & D2 & N2 & B2 & P2). exists m2. rewrite fold_left_app. split; [exact K2|].
  assert (Nl : forall fn', In fn' (map fst l) -> POLICYPATH ++ [fn +++ ".policy"] <> POLICYPATH ++ [fn' +++ ".policy"]).
  { intros fn' Hf X. apply app_inv_head in X. injection X as X. assert (fn = fn') by (revert X; apply app_inj_r). congruence. }
  assert (B1' : forall x, In x b1 -> backed f0 (fold_left apply_op ops2 (fold_left apply_op ops1 f)) m2 x).
  { intros x Hx. destruct (B1 x Hx) as [Hn Hb]. apply P2; [exact Hb|]. intros fn' Hf. rewrite Hn. apply Nl. exact Hf. }
  assert (L1 : length b1 <= 1) by (eapply save_one_length; exact E1).
  split; [|split; [|split]].
  - rewrite map_app. destruct b1 as [|x [|y b1]]; [exact D2| |cbn in L1; lia]. cbn [map app]. constructor; [|exact D2].
    intros X. apply in_map_iff in X as (y & Hy & Iy). destruct (N2 y Iy) as (fn' & Hf & Hy'). destruct (B1 x (or_introl eq_refl)) as [Hn _].
    apply (Nl fn' Hf). congruence.
  - intros x Hx. apply in_app_or in Hx as [Hx|Hx]; [exists fn; split; [left; reflexivity|apply B1; exact Hx]|].
    destruct (N2 x Hx) as (fn' & Hf & Hx'). exists fn'. split; [right; exact Hf|exact Hx'].
  - intros x Hx. apply in_app_or in Hx as [Hx|Hx]; auto.
  - intros x Hx Nx. apply P2; [apply P1; [exact Hx|apply Nx; left; reflexivity]|]. intros fn' Hf. apply Nx. right. exact Hf.
Qed.

(** *** the old directory *)
Lemma dirs_differ a b : POLICYPATH ++ [a] <> POLICYPATH_OLD ++ [b].
Proof. discriminate. Qed.
Lemma is_file_get f p : is_file f p = true -> exists c, fget f p = Some (NFile c).
Proof. unfold is_file. destruct (fget f p) as [[c| |]|]; try discriminate. eauto. Qed.
Lemma remove_old_safe f0 : forall names f m ops b, kept f0 f m -> remove_old f names = (ops, b) ->
  safe f0 f ops /\ exists m', kept f0 (fold_left apply_op ops f) m' /\
    (forall x, backed f0 f m x -> backed f0 (fold_left apply_op ops f) m' x).
Proof.
  induction names as [|n names IH]; intros f m ops b K E; cbn [remove_old] in E.
  { injection E as <- <-. split; [apply safe_nil; apply (kept_all _ _ _ K)|]. exists m. auto. }
  destruct (is_file f (POLICYPATH_OLD ++ [n]) && negb (ends ".rpmsave" n)) eqn:C; [|exact (IH f m ops b K E)].
  apply andb_true_iff in C as [C _]. apply is_file_get in C as [c Gf].
  set (file := POLICYPATH_OLD ++ [n]) in *. set (backup := POLICYPATH_OLD ++ [backup_name f POLICYPATH_OLD n ".rpmsave"]) in *.
  assert (Nb : fget f backup = None) by (apply backup_free; discriminate).
  assert (Ub : unused f0 m backup) by (eapply unused_new; eassumption).
  assert (Nbf : file <> backup) by congruence.
  assert (As : forall q, fget f0 q <> None -> aside q file -> aside q backup) by (intros q _; apply backup_aside; right; reflexivity).
  assert (K1 : kept f0 (apply_op f (ORename file backup)) (redirect_path m file backup))
    by (cbn [apply_op]; rewrite Gf; apply kept_rename; assumption).
  destruct (remove_old (apply_op f (ORename file backup)) names) as [ops1 b1] eqn:E1. injection E as <- <-.
  destruct (IH _ _ ops1 b1 K1 E1) as (S1 & m' & K2 & P2).
  split.
  - eapply safe_rename; [exact K|exact Ub|exact Gf|exact As|exact Nbf|]. cbn [apply_op] in S1. rewrite Gf in S1. exact S1.
  - exists m'. cbn [fold_left]. split; [exact K2|]. intros x (X0 & X1 & X2 & X3 & X4). apply P2. destruct X1 as [a X1], X2 as [y X2].
    split; [|split; [eauto|split; [eauto|split]]].
    + cbn [apply_op]. rewrite Gf. rewrite fget_fset_other, fget_fdel_other by (rewrite X2; apply dirs_differ). exact X0.
    + intros q Hq Hm. destruct (list_eq_dec string_dec (m q) file) as [Y|Y].
      * rewrite redirect_hit in Hm by exact Y. rewrite X1 in Hm. symmetry in Hm. exact (dirs_differ _ _ Hm).
      * rewrite redirect_miss in Hm by exact Y. exact (X3 q Hq Hm).
    + intros q Hq Hm. destruct (list_eq_dec string_dec (m q) file) as [Y|Y].
      * rewrite redirect_hit in Hm by exact Y. rewrite X2 in Hm. symmetry in Hm. destruct (dirs_differ _ _ Hm).
      * rewrite redirect_miss in Hm by exact Y. exact (X4 q Hq Hm).
Qed.

(** *** going back *)
Lemma restore_safe f0 : forall b f m b' ops r, kept f0 f m -> NoDup (map fst b) -> NoDup (map snd b) -> (forall x, In x b -> backed f0 f m x) ->
  (forall x, In x b' -> exists n, fst x = POLICYPATH_OLD ++ [n]) -> match b' with [] => True | x :: _ => fget f (fst x) = None end ->
  restore f (b ++ b') = (ops, r) -> safe f0 f ops.
Proof.
  induction b as [|[file backup] b IH]; intros f m b' ops r K D Dk B O N E; cbn [app restore] in E.
  { destruct b' as [|[nf bk] b']; cbn [restore] in E; [injection E as <- <-; apply safe_nil; apply (kept_all _ _ _ K)|].
    unfold exists_path in E. cbn [fst] in N. rewrite N in E. injection E as <- <-. apply safe_nil. apply (kept_all _ _ _ K). }
  destruct (exists_path f file); [|injection E as <- <-; apply safe_nil; apply (kept_all _ _ _ K)].
  cbn [fold_left] in E. destruct (restore _ (b ++ b')) as [ops1 r1] eqn:E1. injection E as <- <-.
  destruct (B _ (or_introl eq_refl)) as (X0 & (a & X1) & (y & X2) & X3 & X4). cbn [fst snd] in *.
  assert (Nbf : backup <> file) by (rewrite X1, X2; intros Z; apply app_inv_head in Z; injection Z as Z; exact (last_char_bak a y (eq_sym Z))).
  destruct (fget f backup) as [n|] eqn:Gb; [|congruence].
  assert (K1 : kept f0 (fdel f file) m) by (apply kept_del; assumption).
  assert (Gb1 : fget (fdel f file) backup = Some n) by (rewrite fget_fdel_other by exact Nbf; exact Gb).
  assert (As : forall q, fget f0 q <> None -> m q = backup -> aside q file) by exact X4.
  (* the rename, with the weaker condition on names *)
  assert (K2 : kept f0 (fset (fdel (fdel f file) backup) file n) (redirect_path m backup file)).
  { constructor.
    - intros q x H. assert (Hq : fget f0 q <> None) by congruence. pose proof (k_there _ _ _ K1 q x H) as T.
      destruct (list_eq_dec string_dec (m q) backup) as [Y|Y].
      + rewrite redirect_hit by exact Y. rewrite fget_fset. congruence.
      + rewrite redirect_miss by exact Y. rewrite fget_fset_other by (apply X3; exact Hq). rewrite fget_fdel_other by exact Y. exact T.
    - intros q r' Hq Hr X. destruct (list_eq_dec string_dec (m q) backup) as [Y|Y], (list_eq_dec string_dec (m r') backup) as [Z|Z].
      + apply (k_inj _ _ _ K); congruence.
      + rewrite (redirect_hit m backup file q Y), (redirect_miss m backup file r' Z) in X. destruct (X3 r' Hr (eq_sym X)).
      + rewrite (redirect_miss m backup file q Y), (redirect_hit m backup file r' Z) in X. destruct (X3 q Hq X).
      + rewrite !redirect_miss in X by assumption. apply (k_inj _ _ _ K); assumption.
    - intros q Hq. destruct (list_eq_dec string_dec (m q) backup) as [Y|Y].
      + rewrite redirect_hit by exact Y. apply As; assumption.
      + rewrite redirect_miss by exact Y. apply (k_aside _ _ _ K). exact Hq. }
  cbn [apply_op] in E1. rewrite Gb1 in E1. cbn [map fst] in D. inversion D as [|? ? Nd D']; subst x l.
  cbn [app]. eapply safe_unlink; [exact K|exact X3|]. apply safe_cons.
  - intros f' S. apply stopped_other in S as [-> | ->]; [apply (kept_all _ _ _ K1)| |discriminate]. cbn [apply_op]. rewrite Gb1. apply (kept_all _ _ _ K2).
  - cbn [apply_op]. rewrite Gb1. cbn [map snd] in Dk. inversion Dk as [|? ? Nk Dk']; subst x l. refine (IH _ _ b' ops1 r1 K2 D' Dk' _ O _ E1).
    + intros x Hx. destruct (B x (or_intror Hx)) as (Y0 & (a2 & Y1) & (y2 & Y2) & Y3 & Y4).
      assert (N1 : snd x <> backup) by (intros Z; apply Nk; rewrite <- Z; apply in_map; exact Hx).
      assert (N2 : fst x <> file) by (intros Z; apply Nd; rewrite <- Z; apply in_map; exact Hx).
      assert (N3 : forall a y, POLICYPATH ++ [a +++ ".policy"] <> POLICYPATH ++ [y +++ ".bak"])
        by (intros a' y' Z; apply app_inv_head in Z; injection Z as Z; exact (last_char_bak a' y' Z)).
      assert (N4 : snd x <> file) by (rewrite Y2, X1; intros Z; symmetry in Z; exact (N3 _ _ Z)).
      split; [|split; [eauto|split; [eauto|split]]].
      * rewrite fget_fset_other by exact N4. rewrite fget_fdel_other by exact N1. rewrite fget_fdel_other by exact N4. exact Y0.
      * intros q Hq Hm. destruct (list_eq_dec string_dec (m q) backup) as [Z|Z].
        -- rewrite redirect_hit in Hm by exact Z. congruence.
        -- rewrite redirect_miss in Hm by exact Z. exact (Y3 q Hq Hm).
      * intros q Hq Hm. destruct (list_eq_dec string_dec (m q) backup) as [Z|Z].
        -- rewrite redirect_hit in Hm by exact Z. congruence.
        -- rewrite redirect_miss in Hm by exact Z. exact (Y4 q Hq Hm).
    + destruct b' as [|x b']; [exact I|]. destruct (O x (or_introl eq_refl)) as [n' On]. rewrite On in *.
      rewrite fget_fset_other by (rewrite X1; intros Z; symmetry in Z; exact (dirs_differ _ _ Z)).
      rewrite fget_fdel_other by (rewrite X2; intros Z; symmetry in Z; exact (dirs_differ _ _ Z)).
      rewrite fget_fdel_other by (rewrite X1; intros Z; symmetry in Z; exact (dirs_differ _ _ Z)). exact N.
Qed.
