(** Which files are loaded, and in which order *)
From Coq Require Import String Ascii List Bool Arith Lia Sorting Permutation.
From Verif Require Import Base SysInfo Token Rule FileSys Loader SpecPolicy SpecRule SpecLoader.
From Verif Require Import TokenProofs RuleProofs TextProofs LoaderProofs.
Import ListNotations.
Open Scope string_scope.
Open Scope nat_scope.
Open Scope list_scope.

Lemma path_eqb_spec p q : reflect (p = q) (path_eqb p q).
Proof. unfold path_eqb. destruct (list_eq_dec string_dec p q); constructor; auto. Qed.
Lemma path_eqb_refl p : path_eqb p p = true.
Proof. destruct (path_eqb_spec p p); auto. Qed.

(** ** Order *)
Lemma str_leb_lt a b : str_leb a b = true <-> a = b \/ lt_bytes a b.
Proof.
  revert b. induction a as [|x a IH]; intros [|y b]; simpl.
  - split; auto.
  - split; auto. right. constructor.
  - split; [discriminate|]. intros [H|H]; [discriminate|inversion H].
  - rewrite orb_true_iff, andb_true_iff, Nat.ltb_lt, Nat.eqb_eq, IH. split.
    + intros [H|[H [->|H']]].
      * right. apply lb_char. auto.
      * left. f_equal. rewrite <- (ascii_nat_embedding x), <- (ascii_nat_embedding y). congruence.
      * right. assert (x = y) as -> by (rewrite <- (ascii_nat_embedding x), <- (ascii_nat_embedding y); congruence).
        apply lb_eq. auto.
    + intros [H|H]; [inversion H; subst; auto|]. inversion H; subst; auto.
Qed.
Lemma lt_irrefl a : ~ lt_bytes a a.
Proof. induction a as [|x a IH]; intros H; inversion H; subst; auto; lia. Qed.
Lemma lt_trans a b c : lt_bytes a b -> lt_bytes b c -> lt_bytes a c.
Proof.
  intros H. revert c. induction H; intros c0 Hc; inversion Hc; subst.
  - constructor.
  - constructor.
  - apply lb_char. lia.
  - apply lb_char. auto.
  - apply lb_char. auto.
  - apply lb_eq. auto.
Qed.
Lemma lt_total a b : lt_bytes a b \/ a = b \/ lt_bytes b a.
Proof.
  revert b. induction a as [|x a IH]; intros [|y b].
  - auto.
  - left. constructor.
  - right. right. constructor.
  - destruct (lt_eq_lt_dec (nat_of_ascii x) (nat_of_ascii y)) as [[H|H]|H].
    + left. apply lb_char. auto.
    + assert (x = y) as -> by (rewrite <- (ascii_nat_embedding x), <- (ascii_nat_embedding y); congruence).
      destruct (IH b) as [H'|[->|H']]; auto. * left. apply lb_eq. auto. * right. right. apply lb_eq. auto.
    + right. right. apply lb_char. auto.
Qed.

(** strict sorting by a comparison that agrees with a strict total order *)
Lemma insert_perm {A} (leb : A -> A -> bool) x l : Permutation (x :: l) (insert_by leb x l).
Proof.
  induction l as [|y l IH]; simpl; auto. destruct (leb x y); auto.
  eapply perm_trans; [apply perm_swap|]. auto.
Qed.
Lemma sort_perm {A} (leb : A -> A -> bool) l : Permutation l (sort_by leb l).
Proof. induction l as [|x l IH]; simpl; auto. eapply perm_trans; [|apply insert_perm]. auto. Qed.

Record strict_order {A} (leb : A -> A -> bool) (lt : A -> A -> Prop) : Prop := {
  so_leb : forall x y, x <> y -> (leb x y = true <-> lt x y);
  so_irr : forall x, ~ lt x x;
  so_trans : forall x y z, lt x y -> lt y z -> lt x z;
  so_total : forall x y, x <> y -> lt x y \/ lt y x
}.
(** the same, only for the elements of a list *)
Record strict_on {A} (P : A -> Prop) (leb : A -> A -> bool) (lt : A -> A -> Prop) : Prop := {
  sn_leb : forall x y, P x -> P y -> x <> y -> (leb x y = true <-> lt x y);
  sn_irr : forall x, P x -> ~ lt x x;
  sn_trans : forall x y z, P x -> P y -> P z -> lt x y -> lt y z -> lt x z;
  sn_total : forall x y, P x -> P y -> x <> y -> lt x y \/ lt y x
}.
Lemma insert_sorted {A} (P : A -> Prop) leb lt x (l : list A) : strict_on P leb lt ->
  (forall y, In y (x :: l) -> P y) -> ~ In x l -> StronglySorted lt l -> StronglySorted lt (insert_by leb x l).
Proof.
  intros Ho HP Hn Hs. induction Hs as [|y l Hs IH Hf]; simpl.
  - repeat constructor.
  - assert (Px : P x) by (apply HP; simpl; auto). assert (Py : P y) by (apply HP; simpl; auto).
    assert (Hxy : x <> y) by (intros ->; apply Hn; simpl; auto).
    destruct (leb x y) eqn:E.
    + apply (sn_leb _ _ _ Ho) in E; auto. constructor; [constructor; auto|]. constructor; auto.
      rewrite Forall_forall in *. intros z Hz. eapply (sn_trans _ _ _ Ho); eauto. apply HP; simpl; auto.
    + assert (Hyx : lt y x).
      { destruct (sn_total _ _ _ Ho x y) as [H|H]; auto. apply (sn_leb _ _ _ Ho) in H; auto. congruence. }
      constructor.
      * apply IH; [intros; apply HP; simpl in *; tauto|intros H; apply Hn; simpl; auto].
      * rewrite Forall_forall in *. intros z Hz.
        apply (Permutation_in _ (Permutation_sym (insert_perm leb x l))) in Hz. destruct Hz as [<-|Hz]; auto.
Qed.
Lemma sort_sorted {A} (P : A -> Prop) leb lt (l : list A) : strict_on P leb lt ->
  (forall x, In x l -> P x) -> NoDup l -> StronglySorted lt (sort_by leb l).
Proof.
  intros Ho HP Hn. induction Hn as [|x l Hx Hn IH]; simpl; [constructor|].
  apply (insert_sorted P); auto.
  - intros y [<-|Hy]; [apply HP; simpl; auto|]. apply HP. right. eapply Permutation_in; [apply Permutation_sym, sort_perm|eauto].
  - intros H. apply Hx. eapply Permutation_in; [apply Permutation_sym, sort_perm|eauto].
  - apply IH. intros; apply HP; simpl; auto.
Qed.
Lemma sorted_unique {A} (lt : A -> A -> Prop) l l' : (forall x, In x l -> ~ lt x x) ->
  (forall x y, In x l -> In y l -> lt x y -> lt y x -> False) ->
  StronglySorted lt l -> StronglySorted lt l' -> (forall x, In x l <-> In x l') -> l = l'.
Proof.
  revert l'. induction l as [|x l IH]; intros l' Hirr Hasym Hs Hs' He.
  - destruct l' as [|y l']; auto. exfalso. apply (He y). simpl; auto.
  - destruct l' as [|y l']; [exfalso; apply (He x); simpl; auto|].
    inversion Hs as [|? ? Hs1 Hf1]; subst. inversion Hs' as [|? ? Hs2 Hf2]; subst.
    rewrite Forall_forall in Hf1, Hf2.
    assert (x = y).
    { destruct (proj1 (He x) (or_introl eq_refl)) as [H|H]; auto.
      destruct (proj2 (He y) (or_introl eq_refl)) as [H'|H']; auto.
      exfalso. apply (Hasym x y); simpl; auto. }
    subst y. f_equal. apply IH; auto.
    + intros z Hz. apply Hirr. simpl; auto.
    + intros z w Hz Hw. apply Hasym; simpl; auto.
    + intros z. split; intros Hz.
      * destruct (proj1 (He z) (or_intror Hz)) as [<-|H]; auto. exfalso. apply (Hirr x); simpl; auto.
      * destruct (proj2 (He z) (or_intror Hz)) as [<-|H]; auto. exfalso. apply (Hirr x); simpl; auto.
Qed.

Lemma str_strict P : strict_on P str_leb lt_bytes.
Proof.
  constructor.
  - intros x y _ _ H. rewrite str_leb_lt. intuition congruence.
  - intros x _. apply lt_irrefl.
  - intros x y z _ _ _. apply lt_trans.
  - intros x y _ _ H. destruct (lt_total x y) as [|[|]]; auto. contradiction.
Qed.

(** ** Suffixes *)
Lemma last_dot_none s : last_dot s = None <-> has_char "." s = false.
Proof.
  induction s as [|c s IH]; simpl; [tauto|]. destruct (last_dot s) as [r|].
  - split; [discriminate|]. intros H. apply orb_false_iff in H as [_ H]. apply IH in H. discriminate.
  - rewrite (proj1 IH eq_refl). rewrite (Ascii.eqb_sym c). destruct (Ascii.eqb "." c); simpl; split; congruence.
Qed.
Lemma last_dot_some s r : last_dot s = Some r <-> exists a t, s = a +++ String "." t /\ r = String "." t /\ has_char "." t = false.
Proof.
  induction s as [|c s IH]; cbn [last_dot].
  - split; [discriminate|]. intros (a & t & H & _). destruct a; discriminate.
  - destruct (last_dot s) as [r'|] eqn:E.
    + rewrite IH. split.
      * intros (a & t & -> & -> & Ht). exists (String c a), t. auto.
      * intros (a & t & He & -> & Ht). destruct a as [|d a]; simpl in He; inversion He; subst.
        -- apply last_dot_none in Ht. congruence.
        -- exists a, t. auto.
    + pose proof (proj1 (last_dot_none s) E) as Hs. destruct (Ascii.eqb_spec c ".").
      * subst. split.
        -- intros H. inversion H; subst. exists "", s. auto.
        -- intros (a & t & He & -> & Ht). destruct a as [|d a]; simpl in He; inversion He; subst; auto.
           rewrite has_char_app in Hs. simpl in Hs. rewrite orb_true_r in Hs. discriminate.
      * split; [discriminate|]. intros (a & t & He & -> & Ht). destruct a as [|d a]; simpl in He; inversion He; subst.
        -- congruence.
        -- rewrite has_char_app in Hs. simpl in Hs. rewrite orb_true_r in Hs. discriminate.
Qed.
Lemma suffix_spec n t : t <> "" -> has_char "." t = false ->
  (suffix n = String "." t <-> exists stem, n = stem +++ String "." t /\ stem <> "").
Proof.
  intros Ht Hd. unfold suffix. split.
  - destruct (last_dot n) as [r|] eqn:E; [|discriminate].
    destruct ((String.length r =? String.length n)%nat || String.eqb r ".") eqn:Eb; [discriminate|].
    intros ->. apply orb_false_iff in Eb as [Eb _]. apply Nat.eqb_neq in Eb.
    apply last_dot_some in E as (a & t' & -> & Hr & _). inversion Hr; subst t'.
    exists a. split; auto. intros ->. apply Eb. reflexivity.
  - intros (stem & -> & Hs). assert (last_dot (stem +++ String "." t) = Some (String "." t)) as ->.
    { apply last_dot_some. exists stem, t. auto. }
    replace (String.length (String "." t) =? String.length (stem +++ String "." t))%nat with false.
    + destruct (String.eqb_spec (String "." t) "."); auto. inversion e; contradiction.
    + symmetry. apply Nat.eqb_neq. rewrite length_app_s. destruct stem; [contradiction|simpl; lia].
Qed.

Lemma policy_name_spec n : String.eqb (suffix n) POLICYSUFFIX && negb (starts "." n) = true <-> policy_name n.
Proof.
  unfold policy_name. rewrite andb_true_iff, negb_true_iff, String.eqb_eq.
  unfold POLICYSUFFIX. rewrite suffix_spec by (reflexivity || discriminate). firstorder.
Qed.
Lemma filename_char_spec c : filename_char c = true <-> filename_letter c.
Proof.
  unfold filename_char, filename_letter, is_digit, is_lower, is_char, in_range.
  rewrite !orb_true_iff, !andb_true_iff, !Nat.leb_le, !Ascii.eqb_eq. cbn [In].
  intuition (subst; auto).
Qed.
Lemma filename_spec n : sforall filename_char n = true <-> plain_filename n.
Proof. rewrite sforall_has. unfold plain_filename. setoid_rewrite filename_char_spec. tauto. Qed.

(** ** Directories *)
Lemma split_last_app d n : split_last (d ++ [n]) = Some (d, n).
Proof.
  induction d as [|x d IH]; auto. cbn [app split_last]. rewrite IH. destruct (d ++ [n]) eqn:E; auto.
  destruct d; discriminate.
Qed.
Lemma split_last_spec p d n : split_last p = Some (d, n) <-> p = d ++ [n].
Proof.
  split; [|intros ->; apply split_last_app]. destruct (rev p) as [|x l] eqn:E.
  - apply (f_equal (@rev string)) in E. rewrite rev_involutive in E. simpl in E. subst. discriminate.
  - apply (f_equal (@rev string)) in E. rewrite rev_involutive in E. simpl in E. subst. rewrite split_last_app.
    intros H. inversion H; subst. auto.
Qed.
Lemma listing_In f d n : In n (listing f d) <-> In (d ++ [n]) (map fst f).
Proof.
  induction f as [|[p nd] f IH]; simpl; [tauto|]. destruct (split_last p) as [[d' n']|] eqn:E.
  - apply split_last_spec in E. subst p. destruct (path_eqb_spec d d').
    + subst d'. simpl. rewrite IH. split; intros [H|H]; auto; left; [congruence|].
      apply app_inj_tail in H as [_ H]. auto.
    + rewrite IH. split; auto. intros [H|H]; auto. apply app_inj_tail in H as [H _]. congruence.
  - rewrite IH. split; auto. intros [H|H]; auto. subst p.
    assert (split_last (d ++ [n]) = Some (d, n)) by (apply split_last_spec; auto). congruence.
Qed.
Lemma listing_NoDup f d : wf_fs f -> NoDup (listing f d).
Proof.
  unfold wf_fs. induction f as [|[p nd] f IH]; simpl; intros H; [constructor|].
  inversion H as [|? ? Hn Hnd]; subst. destruct (split_last p) as [[d' n']|] eqn:E; auto.
  apply split_last_spec in E. subst p. destruct (path_eqb_spec d d'); auto. subst d'.
  constructor; auto. rewrite listing_In. auto.
Qed.
Lemma is_dir_spec f d : is_dir f d = true <-> fget f d = Some NDir.
Proof. unfold is_dir. destruct (fget f d) as [[]|]; split; congruence. Qed.
Lemma is_file_spec f p : is_file f p = true <-> regular f p.
Proof. unfold is_file, regular. destruct (fget f p) as [[c| |]|]; split; eauto; try discriminate; intros [c' H]; discriminate. Qed.
Lemma candidate_spec f d n : candidate f d n = true <-> policy_name n /\ regular f (d ++ [n]).
Proof.
  unfold candidate. rewrite <- andb_assoc, andb_true_iff, policy_name_spec, is_file_spec. tauto.
Qed.
Lemma candidates_In f d n : In n (filter (candidate f d) (listing f d)) <-> policy_file f d n.
Proof. rewrite filter_In, candidate_spec. unfold policy_file, entry. tauto. Qed.

Theorem filter_filepaths_spec f d l : wf_fs f ->
  (do names <- iterdir f d; filter_filepaths f d names) = Ok l <-> policy_dir f d l.
Proof.
  intros Hwf. unfold iterdir, policy_dir. destruct (is_dir f d) eqn:Ed.
  2:{ split; [discriminate|]. intros (H & _). apply is_dir_spec in H. congruence. }
  apply is_dir_spec in Ed. cbn [bind]. unfold filter_filepaths.
  set (c := filter (candidate f d) (listing f d)).
  assert (Hc : forall n, In n c <-> policy_file f d n) by (intros; apply candidates_In).
  assert (Hnd : NoDup c) by (apply NoDup_filter, listing_NoDup; auto).
  destruct (forallb (sforall filename_char) c) eqn:Ef.
  - rewrite forallb_forall in Ef. split.
    + intros H. inv H. split; auto. split; [|split].
      * apply (sort_sorted (fun _ => True)); auto. apply str_strict.
      * intros n. rewrite <- Hc. split; apply Permutation_in; [apply Permutation_sym|]; apply sort_perm.
      * intros n Hn. apply filename_spec, Ef. eapply Permutation_in; [apply Permutation_sym, sort_perm|eauto].
    + intros (_ & Hs & Hi & _). f_equal. eapply (sorted_unique lt_bytes).
      * intros. apply lt_irrefl.
      * intros x y _ _ H1 H2. apply (lt_irrefl x). eapply lt_trans; eauto.
      * apply (sort_sorted (fun _ => True)); auto. apply str_strict.
      * auto.
      * intros n. rewrite Hi, <- Hc. split; apply Permutation_in; [apply Permutation_sym|]; apply sort_perm.
  - split; [discriminate|]. intros (_ & _ & Hi & Hp). exfalso.
    assert (forallb (sforall filename_char) c = true); [|congruence].
    apply forallb_forall. intros n Hn. apply filename_spec, Hp, Hi, Hc. auto.
Qed.

Lemma NoDup_app_iff_local {A} (a b : list A) : NoDup a -> NoDup b -> (forall x, In x a -> ~ In x b) -> NoDup (a ++ b).
Proof.
  intros Ha Hb H. induction Ha as [|x a Hx Ha IH]; simpl; auto. constructor.
  - rewrite in_app_iff. intros [H'|H']; [auto|]. apply (H x); simpl; auto.
  - apply IH. intros y Hy. apply H. simpl; auto.
Qed.

(** ** Selection over several directories *)
Definition first_in (f : fs) (dirs : list path) (d : path) (n : string) : Prop :=
  exists before after, dirs = before ++ d :: after /\ policy_file f d n /\
    forall d', In d' before -> ~ policy_file f d' n.

Lemma policy_file_dec f d n : policy_file f d n \/ ~ policy_file f d n.
Proof.
  rewrite <- candidates_In. destruct (in_dec string_dec n (filter (candidate f d) (listing f d))); auto.
Qed.

Record selected (f : fs) (dirs : list path) (sel : list (path * string)) : Prop := {
  sl_dirs : forall d, In d dirs -> fget f d = Some NDir;
  sl_plain : forall d n, In d dirs -> policy_file f d n -> plain_filename n;
  sl_nodup : NoDup (map snd sel);
  sl_in : forall d n, In (d, n) sel <-> first_in f dirs d n
}.
Lemma first_in_names f dirs sel : (forall d n, In (d, n) sel <-> first_in f dirs d n) ->
  forall n, In n (map snd sel) <-> exists d, In d dirs /\ policy_file f d n.
Proof.
  intros H n. split.
  - rewrite in_map_iff. intros ([d n'] & Hn & Hi). simpl in Hn. subst n'. apply H in Hi as (b & a & -> & Hp & _).
    exists d. split; auto. apply in_or_app. simpl; auto.
  - intros (d & Hd & Hp). apply in_split in Hd as (b & a & ->).
    assert (exists b' d' a', b ++ [d] = b' ++ d' :: a' /\ policy_file f d' n /\ forall x, In x b' -> ~ policy_file f x n) as (b' & d' & a' & He & Hp' & Hb).
    { clear H. revert Hp. induction b as [|x b IH]; intros Hp.
      - exists [], d, []. simpl. auto.
      - destruct (policy_file_dec f x n) as [Hx|Hx].
        + exists [], x, (b ++ [d]). simpl. auto.
        + destruct (IH Hp) as (b' & d' & a' & He & Hp' & Hb). exists (x :: b'), d', a'. simpl. rewrite He.
          split; auto. split; auto. intros y [<-|Hy]; auto. }
    apply in_map_iff. exists (d', n). split; auto. apply H. exists b', (a' ++ a). split; [|auto].
    change (d :: a) with ([d] ++ a). rewrite app_assoc, He, <- app_assoc. reflexivity.
Qed.
Lemma select_sound f : wf_fs f -> forall dirs done final l,
  selected f done final -> select_files f dirs final = Ok l -> selected f (done ++ dirs) l.
Proof.
  intros Hwf. induction dirs as [|d dirs IH]; intros done final l Hsel H.
  - simpl in H. inv H. rewrite app_nil_r. auto.
  - simpl in H. apply bind_ok in H as (names & Hn & H). apply bind_ok in H as (ns & Hf & H).
    assert (Hpd : policy_dir f d ns).
    { apply filter_filepaths_spec; auto. rewrite Hn. exact Hf. }
    destruct Hpd as (Hd & Hs & Hi & Hp).
    replace (done ++ d :: dirs) with ((done ++ [d]) ++ dirs) by (rewrite <- app_assoc; auto).
    eapply IH; [|exact H]. clear IH H. pose proof (first_in_names _ _ _ (sl_in _ _ _ Hsel)) as Hnames.
    set (new := filter (fun n => negb (smem n (map snd final))) ns).
    assert (Hnew : forall n, In n new <-> policy_file f d n /\ ~ In n (map snd final)).
    { intros n. unfold new. rewrite filter_In, negb_true_iff, smem_false, Hi. tauto. }
    constructor.
    + intros x Hx. apply in_app_or in Hx as [Hx|[<-|[]]]; auto. eapply sl_dirs; eauto.
    + intros x n Hx Hpf. apply in_app_or in Hx as [Hx|[<-|[]]]; [eapply sl_plain; eauto|]. apply Hp, Hi. auto.
    + rewrite map_app, map_map. cbn [snd]. rewrite map_id. apply NoDup_app_iff_local; [eapply sl_nodup; eauto| |].
      * apply NoDup_filter. clear - Hs. induction Hs as [|x l Hs IH Hf]; constructor; auto.
        rewrite Forall_forall in Hf. intros Hx. apply Hf in Hx. eapply lt_irrefl; eauto.
      * intros n Hn1 Hn2. apply Hnew in Hn2. tauto.
    + intros x n. rewrite in_app_iff, (sl_in _ _ _ Hsel), in_map_iff. split.
      * intros [(b & a & -> & Hpf & Hb)|(n' & He & Hn')].
        -- exists b, (a ++ [d]). split; [|auto]. rewrite <- app_assoc. auto.
        -- inversion He; subst. apply Hnew in Hn' as [Hpf Hno]. exists done, []. split; auto. split; auto.
           intros d' Hd' Hpf'. apply Hno, Hnames. eauto.
      * intros (b & a & He & Hpf & Hb). destruct (in_dec string_dec n (map snd final)) as [Hin|Hin].
        -- left. apply Hnames in Hin as (d' & Hd' & Hpf').
           assert (exists a', done = b ++ x :: a') as [a' ->].
           { clear - He Hd' Hpf' Hb. revert b He Hb. induction done as [|y done IH]; intros b He Hb; [destruct Hd'|].
             destruct b as [|z b]; simpl in He; inversion He; subst.
             - exists done. auto.
             - destruct Hd' as [<-|Hd'].
               + exfalso. apply (Hb z); simpl; auto.
               + destruct (IH Hd' b) as [a' ->]; auto.
                 * intros w Hw. apply Hb. simpl; auto.
                 * exists a'. auto. }
           exists b, a'. auto.
        -- right. destruct (in_dec (list_eq_dec string_dec) x done) as [Hx|Hx].
           ++ exfalso. apply Hin, Hnames. eauto.
           ++ exists n. assert (x = d).
              { assert (In x (done ++ [d])) by (rewrite He; apply in_or_app; simpl; auto).
                apply in_app_or in H as [H|[H|[]]]; auto. contradiction. }
              subst x. split; auto. apply Hnew. auto.
Qed.

Lemma select_total f : wf_fs f -> forall dirs final,
  (forall d, In d dirs -> fget f d = Some NDir) ->
  (forall d n, In d dirs -> policy_file f d n -> plain_filename n) ->
  exists l, select_files f dirs final = Ok l.
Proof.
  intros Hwf. induction dirs as [|d dirs IH]; intros final Hd Hp; simpl; [eauto|].
  assert (exists l, policy_dir f d l) as [l Hl].
  { exists (sort_by str_leb (filter (candidate f d) (listing f d))). split; [apply Hd; simpl; auto|].
    assert (Hc : forall n, In n (sort_by str_leb (filter (candidate f d) (listing f d))) <-> policy_file f d n).
    { intros n. rewrite <- candidates_In. split; apply Permutation_in; [apply Permutation_sym|]; apply sort_perm. }
    split; [|split; auto].
    - apply (sort_sorted (fun _ => True)); auto; [apply str_strict|]. apply NoDup_filter, listing_NoDup; auto.
    - intros n Hn. apply (Hp d); simpl; auto. apply Hc. auto. }
  apply filter_filepaths_spec in Hl; auto. apply bind_ok in Hl as (names & -> & Hl). cbn [bind]. rewrite Hl. cbn [bind].
  apply IH; intros; [apply Hd|eapply Hp]; simpl; eauto.
Qed.

Definition name_lt (x y : path * string) : Prop := lt_bytes (snd x) (snd y).
Lemma name_strict (l : list (path * string)) : NoDup (map snd l) -> strict_on (fun x => In x l) name_leb name_lt.
Proof.
  intros Hnd.
  assert (Hinj : forall x y, In x l -> In y l -> x <> y -> snd x <> snd y).
  { clear - Hnd. induction l as [|z l IH]; simpl; [tauto|]. inversion Hnd as [|? ? Hn Hnd']; subst.
    intros x y [<-|Hx] [<-|Hy] Hne He; try (apply Hne; reflexivity).
    - apply Hn. rewrite He. apply in_map. auto.
    - apply Hn. rewrite <- He. apply in_map. auto.
    - exact (IH Hnd' x y Hx Hy Hne He). }
  unfold name_leb, name_lt. constructor.
  - intros x y Hx Hy Hne. rewrite str_leb_lt. pose proof (Hinj x y Hx Hy Hne). intuition congruence.
  - intros x _. apply lt_irrefl.
  - intros x y z _ _ _. apply lt_trans.
  - intros x y Hx Hy Hne. pose proof (Hinj x y Hx Hy Hne). destruct (lt_total (snd x) (snd y)) as [|[|]]; auto. contradiction.
Qed.
Lemma NoDup_map_inv_l {A B} (g : A -> B) l : NoDup (map g l) -> NoDup l.
Proof. apply NoDup_map_inv. Qed.

Theorem select_chosen f dirs sel : wf_fs f ->
  (exists l, select_files f dirs [] = Ok l /\ sel = sort_by name_leb l) <-> chosen f dirs sel.
Proof.
  intros Hwf. assert (H0 : selected f [] []).
  { constructor; simpl; try tauto; [constructor|]. intros d n. split; [tauto|]. intros (b & a & He & _). destruct b; discriminate. }
  split.
  - intros (l & Hl & ->). apply (select_sound f Hwf _ [] []) in Hl; auto. simpl in Hl. destruct Hl as [H1 H2 H3 H4].
    split; [auto|]. split; [auto|]. split.
    + apply (sort_sorted (fun x => In x l)); auto; [apply name_strict; auto|]. eapply NoDup_map_inv; eauto.
    + intros d n. split.
      * intros H. apply (Permutation_in _ (Permutation_sym (sort_perm name_leb l))) in H. apply H4 in H. exact H.
      * intros H. apply (Permutation_in _ (sort_perm name_leb l)). apply H4. exact H.
  - intros (H1 & H2 & H3 & H4). destruct (select_total f Hwf dirs [] H1 H2) as [l Hl]. exists l. split; auto.
    apply (select_sound f Hwf _ [] []) in Hl; auto. simpl in Hl. destruct Hl as [_ _ H3' H4'].
    apply (sorted_unique name_lt).
    + intros x _. apply lt_irrefl.
    + intros x y _ _ Ha Hb. apply (lt_irrefl (snd x)). eapply lt_trans; eauto.
    + auto.
    + apply (sort_sorted (fun x => In x l)); auto; [apply name_strict; auto|]. eapply NoDup_map_inv; eauto.
    + intros [d n]. rewrite H4. rewrite <- (H4' d n). split; apply Permutation_in; [|apply Permutation_sym]; apply sort_perm.
Qed.

(** ** Legacy files *)
Lemma backup_spec n : smem (suffix n) [".rpmsave"; ".rpmnew"; ".swp"] = true <-> backup_name n.
Proof.
  rewrite smem_In. unfold backup_name. cbn [In]. split.
  - intros [H|[H|[H|[]]]]; symmetry in H; apply suffix_spec in H as (stem & -> & Hs); try reflexivity; try discriminate;
      eexists stem, _; split; try reflexivity; auto.
  - intros (stem & s & -> & Hs & [<-|[<-|[<-|[]]]]).
    + left. symmetry. apply (suffix_spec _ "rpmsave"); try reflexivity; try discriminate; eauto.
    + right. left. symmetry. apply (suffix_spec _ "rpmnew"); try reflexivity; try discriminate; eauto.
    + right. right. left. symmetry. apply (suffix_spec _ "swp"); try reflexivity; try discriminate; eauto.
Qed.
Lemma compat_candidate_spec f d n : In n (filter (compat_candidate f d) (listing f d)) <-> legacy_file f d n.
Proof.
  rewrite filter_In. unfold compat_candidate, legacy_file, entry.
  rewrite !andb_true_iff, !negb_true_iff, is_file_spec, valid_chars_spec.
  rewrite <- backup_spec. destruct (smem (suffix n) [".rpmsave"; ".rpmnew"; ".swp"]); intuition congruence.
Qed.
Lemma parse_named n : let sa := parse_service_and_argument n "*" in named_for n (fst sa) (snd sa).
Proof.
  unfold parse_service_and_argument, named_for. destruct (split1 "+" n) as [[s a]|] eqn:E.
  - apply split1_spec in E as [-> Hs]. cbn [fst snd]. split; auto. right. exists a. auto.
  - cbn [fst snd]. split; auto. clear -E. induction n as [|c n IH]; auto. cbn [split1] in E. cbn [has_char].
    destruct (Ascii.eqb "+" c); [discriminate|]. destruct (split1 "+" n) as [[? ?]|]; [discriminate|]. auto.
Qed.
Lemma split1_none c n : has_char c n = false -> split1 c n = None.
Proof.
  induction n as [|d n IH]; auto. cbn [has_char split1]. intros H. apply orb_false_iff in H as [H1 H2].
  rewrite H1, IH; auto.
Qed.
Lemma named_parse n s a : named_for n s a -> parse_service_and_argument n "*" = (s, a).
Proof.
  unfold parse_service_and_argument. intros [Hs [[-> ->]|(x & -> & ->)]].
  - rewrite split1_none; auto.
  - assert (split1 "+" (s +++ "+" +++ x) = Some (s, x)) as -> by (apply split1_spec; auto). reflexivity.
Qed.
Lemma named_name n s a : named_for n s a -> n = if String.eqb a "*" then s else s +++ a.
Proof. intros [Hs [[-> ->]|(x & -> & ->)]]; reflexivity. Qed.
Lemma named_arg n s a : named_for n s a -> a = "*" \/ exists x, a = "+" +++ x.
Proof. intros [Hs [[-> ->]|(x & -> & ->)]]; eauto. Qed.

Lemma lt_neq a b : lt_bytes a b -> a <> b.
Proof. intros H ->. eapply lt_irrefl; eauto. Qed.
Lemma compat_strict : strict_on (fun x => named_for (snd x) (fst (fst x)) (snd (fst x))) compat_leb legacy_before.
Proof.
  constructor.
  - intros [[s1 a1] n1] [[s2 a2] n2] H1 H2 Hne. simpl in H1, H2. cbn [compat_leb legacy_before].
    destruct (String.eqb_spec s1 s2) as [->|Hs].
    + assert (Ha : a1 <> a2).
      { intros ->. apply Hne. rewrite (named_name _ _ _ H1), (named_name _ _ _ H2). auto. }
      unfold arg_leb. destruct (String.eqb_spec a1 a2); [contradiction|].
      destruct (String.eqb_spec a1 "*").
      * subst. split; [discriminate|]. intros [H|[_ [[H _]|[H _]]]]; try congruence. exfalso. eapply lt_irrefl; eauto.
      * destruct (String.eqb_spec a2 "*").
        -- subst. split; auto.
        -- rewrite str_leb_lt. split.
           ++ intros [H|H]; [contradiction|]. right. split; auto.
           ++ intros [H|[_ [[_ H]|[_ [_ H]]]]]; [exfalso; eapply lt_irrefl; eauto|contradiction|auto].
    + rewrite str_leb_lt. intuition congruence.
  - intros [[s a] n] _. cbn [legacy_before]. intros [H|[_ [[H1 H2]|[_ [_ H]]]]]; try contradiction; eapply lt_irrefl; eauto.
  - intros [[s1 a1] n1] [[s2 a2] n2] [[s3 a3] n3] _ _ _. cbn [legacy_before].
    intros [H|[-> H]] [H'|[-> H']].
    + left. eapply lt_trans; eauto.
    + auto.
    + auto.
    + right. split; auto. destruct H as [[H1 H2]|(H1 & H2 & H3)], H' as [[H4 H5]|(H4 & H5 & H6)]; try congruence; auto.
      right. repeat split; auto. eapply lt_trans; eauto.
  - intros [[s1 a1] n1] [[s2 a2] n2] H1 H2 Hne. simpl in H1, H2. cbn [legacy_before].
    destruct (lt_total s1 s2) as [H|[->|H]]; auto.
    assert (Ha : a1 <> a2).
    { intros ->. apply Hne. rewrite (named_name _ _ _ H1), (named_name _ _ _ H2). auto. }
    destruct (string_dec a1 "*") as [->|Ha1], (string_dec a2 "*") as [->|Ha2]; try congruence.
    + right. right. auto.
    + left. right. auto.
    + destruct (lt_total a1 a2) as [H|[H|H]]; [left|contradiction|right]; right; auto.
Qed.

Theorem compat_files_spec f d l : wf_fs f -> compat_files f d = Ok l <-> legacy_files f d l.
Proof.
  intros Hwf. unfold compat_files, legacy_files, iterdir. destruct (is_dir f d) eqn:Ed.
  2:{ split; [discriminate|]. intros (H & _). apply is_dir_spec in H. congruence. }
  apply is_dir_spec in Ed. cbn [bind].
  set (g := fun n => let sa := parse_service_and_argument n "*" in (fst sa, snd sa, n)).
  set (c := map g (filter (compat_candidate f d) (listing f d))).
  assert (Hc : forall s a n, In (s, a, n) c <-> legacy_file f d n /\ named_for n s a).
  { intros s a n. unfold c. rewrite in_map_iff. split.
    - intros (n' & He & Hn). inversion He; subst. apply compat_candidate_spec in Hn. split; auto. apply parse_named.
    - intros [Hl Hn]. exists n. split; [|apply compat_candidate_spec; auto]. unfold g. rewrite (named_parse _ _ _ Hn). auto. }
  assert (HP : forall x, In x c -> named_for (snd x) (fst (fst x)) (snd (fst x))).
  { intros [[s a] n] Hx. apply Hc in Hx. simpl. tauto. }
  assert (Hnd : NoDup c).
  { apply (NoDup_map_inv snd). unfold c. rewrite map_map. cbn [g snd]. rewrite map_id. apply NoDup_filter, listing_NoDup. auto. }
  pose proof (sort_sorted _ _ _ c compat_strict HP Hnd) as Hsort.
  split.
  - intros H. inv H. split; auto. split; auto. intros s a n. rewrite <- Hc.
    split; apply Permutation_in; [apply Permutation_sym|]; apply sort_perm.
  - intros (_ & Hs & Hi). f_equal. apply (sorted_unique legacy_before); auto.
    + intros x Hx. apply (sn_irr _ _ _ compat_strict). apply HP. eapply Permutation_in; [apply Permutation_sym, sort_perm|eauto].
    + intros x y Hx Hy H1 H2.
      apply (Permutation_in _ (Permutation_sym (sort_perm compat_leb c))) in Hx.
      apply (Permutation_in _ (Permutation_sym (sort_perm compat_leb c))) in Hy.
      apply (sn_irr _ _ _ compat_strict x); auto. eapply (sn_trans _ _ _ compat_strict); eauto.
    + intros [[s a] n]. rewrite Hi, <- Hc. split; apply Permutation_in; [apply Permutation_sym|]; apply sort_perm.
Qed.

(** ** The whole policy *)
Lemma read_lines_spec f p ls : read_lines f p = Ok ls <-> file_lines f p ls.
Proof.
  unfold read_lines, read_text, file_lines. destruct (fget f p) as [[[c|]| |]|].
  2-5: (split; [discriminate|]; intros (c & H & _); discriminate).
  destruct (utf8_valid c) eqn:E.
  - cbn [bind]. split; [intros H; inv H; eauto|]. intros (c' & H & _ & ->). inv H. auto.
  - split; [discriminate|]. intros (c' & H & H' & _). inv H. congruence.
Qed.
Lemma open_file_spec f p file ls : open_file f p = Ok (file, ls) <-> file = path_str p /\ file_lines f p ls.
Proof.
  unfold open_file. destruct (is_file f p) eqn:E.
  - split.
    + intros H. apply bind_ok in H as (ls' & H & H'). inv H'. split; auto. apply read_lines_spec. auto.
    + intros [-> H]. apply read_lines_spec in H. rewrite H. auto.
  - split; [discriminate|]. intros [_ (c & H & _)]. exfalso.
    assert (is_file f p = true) by (apply is_file_spec; exists (Some c); auto). congruence.
Qed.
Lemma opens_at_spec f base p file ls : open_file f (resolve base p) = Ok (file, ls) <-> opens_at f base p file ls.
Proof. apply open_file_spec. Qed.

Lemma closing_rules s a sv ar file : service_arg s a sv ar ->
  from_line_service (Some s) (Some a) "@anyvm @anyvm deny" file = Ok (mkRule sv ar TAny TAny (Deny true) file) /\
  from_line_service (Some s) (Some a) "@anyvm @adminvm deny" file = Ok (mkRule sv ar TAny TAdmin (Deny true) file).
Proof.
  intros H. apply service_arg_validate in H. unfold from_line_service.
  change (split_ws "@anyvm @anyvm deny") with ["@anyvm"; "@anyvm"; "deny"].
  change (split_ws "@anyvm @adminvm deny") with ["@anyvm"; "@adminvm"; "deny"].
  change (flat_map (split_all ",") ["deny"]) with ["deny"]. cbn iota.
  unfold make_rule. rewrite H. cbn [bind fst snd]. split; reflexivity.
Qed.

Theorem compat_execute_spec f d rs : wf_fs f ->
  (exists fuel, compat_execute f d fuel = Ok rs) <-> legacy_policy f d rs.
Proof.
  intros Hwf. unfold legacy_policy, compat_execute. split.
  - intros [fuel H]. apply bind_ok in H as (l & Hl & H). exists l. split; [apply compat_files_spec; auto|].
    apply compat_files_spec in Hl; auto. assert (Hall : forall s a n, In (s, a, n) l -> True) by auto.
    clear Hl Hall. revert rs H. induction l as [|[[s a] n] l IH]; intros rs H.
    + simpl in H. inv H. constructor.
    + apply concatM_cons_ok in H as (x & y & Hx & Hy & ->). specialize (IH _ Hy).
      apply bind_ok in Hx as ([sv ar] & Hv & Hx). apply bind_ok in Hx as ([file ls] & Ho & Hx).
      apply bind_ok in Hx as (rs1 & Hr & Hx). cbn [fst snd] in *. pose proof (validate_idem _ _ _ _ Hv) as Hv'.
      apply service_arg_validate in Hv. apply open_file_spec in Ho as [-> Ho].
      apply (load_service_sound (opens_at f d) (compat_open f d) (fun p file ls => proj1 (opens_at_spec f d p file ls))) in Hr; auto.
      destruct (String.eqb_spec a "*").
      * inv Hx. eapply lr_general; eauto.
      * destruct (closing_rules _ _ _ _ (path_str (d ++ [n])) Hv) as [E1 E2]. rewrite E1, E2 in Hx. cbn [bind] in Hx. inv Hx.
        rewrite <- app_assoc. eapply lr_specific; eauto.
  - intros (l & Hl & H). apply compat_files_spec in Hl; auto. rewrite Hl. cbn [bind]. clear Hl.
    induction H as [|s n l sv ar ls rs1 rs2 Hsa Hfl Hs H [fuel2 IH]|s a n l sv ar ls rs1 rs2 Hne Hsa Hfl Hs H [fuel2 IH]].
    + exists 0. reflexivity.
    + pose proof Hsa as Hv. apply service_arg_validate in Hv. pose proof (validate_idem _ _ _ _ Hv) as Hv'.
      apply (load_service_complete (opens_at f d) (compat_open f d) (fun p file ls => proj2 (opens_at_spec f d p file ls))) in Hs as [fuel1 Hs]; auto.
      exists (max fuel1 fuel2). apply concatM_cons_ok. exists rs1, rs2. repeat split.
      * rewrite Hv. cbn [bind]. assert (open_file f (d ++ [n]) = Ok (path_str (d ++ [n]), ls)) as -> by (apply open_file_spec; auto).
        cbn [bind fst snd]. rewrite (load_service_mono _ (max fuel1 fuel2) _ _ _ _ _ _ (Nat.le_max_l _ _) Hs). cbn [bind]. reflexivity.
      * eapply concatM_mono; [|exact IH]. intros [[s' a'] n'] r _ Hy.
        apply bind_ok in Hy as (sa & -> & Hy). apply bind_ok in Hy as (fl & -> & Hy). apply bind_ok in Hy as (rs' & Hr & Hy).
        cbn [bind]. rewrite (load_service_mono _ _ _ _ _ _ _ _ (Nat.le_max_r _ _) Hr). exact Hy.
    + pose proof Hsa as Hv. apply service_arg_validate in Hv. pose proof (validate_idem _ _ _ _ Hv) as Hv'.
      apply (load_service_complete (opens_at f d) (compat_open f d) (fun p file ls => proj2 (opens_at_spec f d p file ls))) in Hs as [fuel1 Hs]; auto.
      exists (max fuel1 fuel2). apply concatM_cons_ok. exists (rs1 ++ closing sv ar (path_str (d ++ [n]))), rs2. repeat split.
      * rewrite Hv. cbn [bind]. assert (open_file f (d ++ [n]) = Ok (path_str (d ++ [n]), ls)) as -> by (apply open_file_spec; auto).
        cbn [bind fst snd]. rewrite (load_service_mono _ (max fuel1 fuel2) _ _ _ _ _ _ (Nat.le_max_l _ _) Hs). cbn [bind].
        destruct (closing_rules _ _ _ _ (path_str (d ++ [n])) Hsa) as [E1 E2]. rewrite E1, E2.
        destruct (String.eqb_spec a "*"); [contradiction|]. reflexivity.
      * eapply concatM_mono; [|exact IH]. intros [[s' a'] n'] r _ Hy.
        apply bind_ok in Hy as (sa & -> & Hy). apply bind_ok in Hy as (fl & -> & Hy). apply bind_ok in Hy as (rs' & Hr & Hy).
        cbn [bind]. rewrite (load_service_mono _ _ _ _ _ _ _ _ (Nat.le_max_r _ _) Hr). exact Hy.
      * rewrite <- app_assoc. auto.
Qed.

Lemma dir_files_spec f d files : wf_fs f ->
  (do names <- iterdir f d; do l <- filter_filepaths f d names;
   Ok (map (fun n => (path_str (d ++ [n]), read_lines f (d ++ [n]))) l)) = Ok (map readable files) <->
  exists names, policy_dir f d names /\
    Forall2 (fun n fl => fst fl = path_str (d ++ [n]) /\ file_lines f (d ++ [n]) (snd fl)) names files.
Proof.
  intros Hwf.
  assert (E : forall names, map (fun n => (path_str (d ++ [n]), read_lines f (d ++ [n]))) names = map readable files <->
     Forall2 (fun n fl => fst fl = path_str (d ++ [n]) /\ file_lines f (d ++ [n]) (snd fl)) names files).
  { intros names. revert files. induction names as [|n names IH]; intros [|[file ls] files]; simpl.
    - split; constructor.
    - split; [discriminate|intros H; inversion H].
    - split; [discriminate|intros H; inversion H].
    - unfold readable at 1. simpl. split.
      + intros H. inversion H. constructor; [|apply IH; auto]. simpl. split; auto. apply read_lines_spec. auto.
      + intros H. inversion H as [|? ? ? ? [H1 H2] H3]; subst. simpl in *. apply IH in H3. rewrite H3.
        apply read_lines_spec in H2. rewrite H2. congruence. }
  split.
  - intros H. apply bind_ok in H as (ns & Hn & H). apply bind_ok in H as (l & Hl & H). inversion H as [H'].
    exists l. split; [|apply E; auto]. apply filter_filepaths_spec; auto. rewrite Hn. exact Hl.
  - intros (names & Hp & Hf). apply filter_filepaths_spec in Hp; auto. apply bind_ok in Hp as (ns & -> & Hl). cbn [bind].
    rewrite Hl. cbn [bind]. f_equal. apply E. auto.
Qed.

Lemma file_loader_sound f legacy base : wf_fs f ->
  loader_sound (file_loader f legacy base) (opens_at f base) (lists_at f base) (legacy_policy f legacy).
Proof.
  intros Hwf. constructor; simpl.
  - intros p file ls H. apply opens_at_spec. auto.
  - intros p files H. destruct (is_dir f (resolve base p)); [|discriminate]. apply dir_files_spec in H; auto.
  - intros fuel rs H. apply compat_execute_spec; eauto.
Qed.
Lemma file_loader_complete f legacy base : wf_fs f ->
  loader_complete (file_loader f legacy base) (opens_at f base) (lists_at f base) (legacy_policy f legacy).
Proof.
  intros Hwf. constructor; simpl.
  - intros p file ls H. apply opens_at_spec. auto.
  - intros p files H. pose proof H as (names & (Hd & _) & _). apply is_dir_spec in Hd. rewrite Hd.
    apply dir_files_spec; auto.
  - intros rs H. apply compat_execute_spec; eauto.
  - intros fuel fuel' rs. apply compat_execute_mono.
Qed.

Theorem load_file_spec f legacy base file ls rs : wf_fs f ->
  (exists fuel, load_file fuel (file_loader f legacy base) file ls = Ok rs) <-> file_rules f legacy base file ls rs.
Proof.
  intros Hwf. split.
  - intros [fuel H]. eapply load_file_sound; eauto. apply file_loader_sound. auto.
  - intros H. eapply (proj1 (load_file_complete _ _ _ _ (file_loader_complete f legacy base Hwf))). exact H.
Qed.

Lemma load_files_spec f legacy sel rs : wf_fs f ->
  (exists fuel, load_files f legacy fuel sel = Ok rs) <-> chosen_rules f legacy sel rs.
Proof.
  intros Hwf. unfold load_files. split.
  - intros [fuel H]. revert rs H. induction sel as [|[d n] sel IH]; intros rs H.
    + simpl in H. inv H. constructor.
    + apply concatM_cons_ok in H as (a & b & Ha & Hb & ->). apply bind_ok in Ha as (ls & Hls & Ha). simpl in Hls, Ha.
      econstructor; eauto. * apply read_lines_spec; eauto. * apply load_file_spec; eauto.
  - induction 1 as [|d n sel ls rs1 rs2 Hls Hr H [fuel2 IH]]; [exists 0; auto|].
    apply load_file_spec in Hr as [fuel1 Hr]; auto. exists (max fuel1 fuel2). apply concatM_cons_ok.
    exists rs1, rs2. repeat split.
    + simpl. apply read_lines_spec in Hls. rewrite Hls. simpl. eapply load_file_mono; [|apply Nat.le_max_l|exact Hr].
      apply (lco_mono _ _ _ _ (file_loader_complete f legacy d Hwf)).
    + eapply concatM_mono; [|exact IH]. intros [d' n'] r _ Hx. apply bind_ok in Hx as (ls' & Hls' & Hx). simpl in *. rewrite Hls'. simpl.
      eapply load_file_mono; [|apply Nat.le_max_r|exact Hx].
      apply (lco_mono _ _ _ _ (file_loader_complete f legacy d' Hwf)).
Qed.

Lemma os_to_denied_ok {A} (r : res A) a : os_to_denied r = Ok a <-> r = Ok a.
Proof. destruct r as [b|[]]; simpl; split; intros H; try discriminate H; exact H. Qed.

Theorem load_policy_spec f legacy dirs rs : wf_fs f ->
  (exists fuel, load_policy f legacy fuel dirs = Ok rs) <-> policy_of f legacy dirs rs.
Proof.
  intros Hwf. unfold policy_of, load_policy. split.
  - intros [fuel H]. apply (proj1 (os_to_denied_ok _ _)) in H. apply bind_ok in H as (l & Hl & H).
    exists (sort_by name_leb l). split; [apply select_chosen; eauto|]. apply load_files_spec; eauto.
  - intros (sel & Hs & Hr). apply select_chosen in Hs as (l & Hl & ->); auto. apply load_files_spec in Hr as [fuel Hr]; auto.
    exists fuel. apply (proj2 (os_to_denied_ok _ _)). rewrite Hl. exact Hr.
Qed.
