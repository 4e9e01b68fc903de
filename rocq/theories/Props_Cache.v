(** Properties C34, C35: the cached policy is current. *)
From Coq Require Import String Ascii List Bool Arith Lia.
From Verif Require Import Base SysInfo Token Rule Policy FileSys Loader Cache
  SpecPolicy SpecRule SpecLoader SelectProofs LoaderExt Props_Loader AdminProofs.
Import ListNotations.
Open Scope string_scope.
Open Scope list_scope.

(** ** Specification *)
(** histories all of whose steps satisfy [P] *)
Inductive reach (lg : path) (fu : nat) (ul : bool) (paths : list path) (P : cache -> label -> Prop) (s0 : cache) : list label -> cache -> Prop :=
| re_start : reach lg fu ul paths P s0 [] s0
| re_step h s l s' : reach lg fu ul paths P s0 h s -> P s l -> cache_step lg fu ul paths s l s' -> reach lg fu ul paths P s0 (h ++ [l]) s'.
Definition anything (s : cache) (l : label) : Prop := True.

(** the object of the change lies in a directory that is watched from the start, or deeper,
    and it is not only the permissions that change *)
Definition noticeable (roots : list path) (c : change) : Prop :=
  ch_kind c <> IN_ATTRIB /\ exists r n rest, In r roots /\ ch_path c = r ++ n :: rest.
(** a change of no consequence: nothing below the roots changes, the roots are not replaced,
    and the policy means the same *)
Definition elsewhere (lg : path) (fu : nat) (paths : list path) (roots : list path) (f : fs) (c : change) : Prop :=
  (forall r q, In r roots -> r <> ch_path c ++ q) /\
  (forall r q, In r roots -> fget (ch_new c) (r ++ q) = fget f (r ++ q)) /\
  load_policy (ch_new c) lg fu paths = load_policy f lg fu paths.
(** Once there are watches, changes are noticeable or of no consequence. Before, those of
    consequence must not come after the policy was loaded. *)
Definition covered (lg : path) (fu : nat) (paths : list path) (s : cache) (l : label) : Prop :=
  match l with
  | LChange c => elsewhere lg fu paths (c_roots s) (c_fs s) c \/
      (if c_watching s then noticeable (c_roots s) c else c_outdated s = true)
  | LRequest during _ _ => if c_watching s then Forall (noticeable (c_roots s)) during else during = []
  | _ => True
  end.

(** ** Lemmas *)
Lemma prefix_spec p : forall q, prefix_path p q = true <-> exists r, q = p ++ r.
Proof.
  induction p as [|a p IH]; intros q; cbn [prefix_path].
  - split; [intros _; exists q; reflexivity|reflexivity].
  - destruct q as [|b q]; [split; [discriminate|intros (r & K); discriminate]|].
    rewrite andb_true_iff, String.eqb_eq, IH. split.
    + intros (-> & r & ->). exists r. reflexivity.
    + intros (r & K). injection K as <- ->. split; [reflexivity|exists r; reflexivity].
Qed.
Lemma prefix_trans p q r : prefix_path p q = true -> prefix_path q r = true -> prefix_path p r = true.
Proof. rewrite !prefix_spec. intros (a & ->) (b & ->). exists (a ++ b). now rewrite app_assoc. Qed.
Lemma dirs_under_In f p q : In q (dirs_under f p) <-> prefix_path p q = true /\ fget f q = Some NDir.
Proof.
  unfold dirs_under. rewrite filter_In, andb_true_iff, is_dir_spec. split; [tauto|].
  intros (A & B). split; auto. apply fget_In. rewrite B. discriminate.
Qed.
Lemma existsb_path p l : existsb (path_eqb p) l = true <-> In p l.
Proof.
  rewrite existsb_exists. split.
  - intros (x & Hx & E). destruct (path_eqb_spec p x); [subst; auto|discriminate].
  - intros H. exists p. split; auto. apply path_eqb_refl.
Qed.

(** every directory below a root has a watch, or will have one when a queued notification
    is delivered *)
Definition Watches (s : cache) : Prop :=
  (forall k p, In (k, p) (c_queue s) -> handled k = true) /\
  forall r q, In r (c_roots s) -> fget (c_fs s) (r ++ q) = Some NDir ->
    In (r ++ q) (c_dirs s) \/
    exists k p, In (k, p) (c_queue s) /\ (k = IN_CREATE \/ k = IN_MOVED_TO) /\ prefix_path p (r ++ q) = true.
Definition Fresh (lg : path) (fu : nat) (paths : list path) (s : cache) : Prop :=
  c_outdated s = true \/ (c_watching s = true /\ c_queue s <> []) \/
  exists rs, c_policy s = Some rs /\ load_policy (c_fs s) lg fu paths = Ok rs.
Definition Inv lg fu paths s : Prop := (c_watching s = true -> Watches s) /\ Fresh lg fu paths s.

Lemma mask_handled k : mask k = true -> handled k = true.
Proof. destruct k; auto. Qed.

Lemma watches_change s c : Watches s -> change_ok (c_fs s) c ->
  noticeable (c_roots s) c \/
  (forall r q, In r (c_roots s) -> r <> ch_path c ++ q) /\
  (forall r q, In r (c_roots s) -> fget (ch_new c) (r ++ q) = fget (c_fs s) (r ++ q)) ->
  Watches (change_tree s c).
Proof.
  intros (Hh & W) (_ & Same & (d & n & Ep & Dd) & Hk) HN. split.
  - cbn [change_tree c_queue]. intros k p Hi. apply in_app_or in Hi as [Hi|Hi]; [eauto|].
    destruct (mask (ch_kind c)) eqn:E; [|destruct Hi]. cbn [andb] in Hi.
    destruct (watched_parent _ _); [|destruct Hi]. destruct Hi as [K|[]]. injection K as <- <-. apply mask_handled, E.
  - cbn [change_tree c_queue c_dirs c_roots c_fs]. intros r q Hr Hd.
    (* a watch or a queued event of the old state carries over *)
    assert (Old : prefix_path (ch_path c) (r ++ q) = false -> fget (c_fs s) (r ++ q) = Some NDir ->
      In (r ++ q) (filter (fun x => negb (prefix_path (ch_path c) x)) (c_dirs s)) \/
      exists k p, In (k, p) (c_queue s ++ (if mask (ch_kind c) && watched_parent (c_dirs s) (ch_path c) then [(ch_kind c, ch_path c)] else [])) /\
        (k = IN_CREATE \/ k = IN_MOVED_TO) /\ prefix_path p (r ++ q) = true).
    { intros Np Hd0. destruct (W r q Hr Hd0) as [H|(k & p & H1 & H2 & H3)].
      - left. apply filter_In. rewrite Np. auto.
      - right. exists k, p. split; [apply in_or_app; auto|auto]. }
    destruct (prefix_path (ch_path c) (r ++ q)) eqn:Pq.
    + assert (Kd : ch_kind c = IN_CREATE \/ ch_kind c = IN_MOVED_TO).
      { destruct (ch_kind c) eqn:K; auto; exfalso; exact (Hk _ Pq Hd). }
      (* the directory of the changed object is below the root, or the object is above the root *)
      assert (Hp : (exists x, d = r ++ x) \/ exists y, r = ch_path c ++ y).
      { clear - Pq Ep. rewrite Ep in *. apply prefix_spec in Pq as (z & E).
        clear Ep. revert d E. induction r as [|a r IH]; intros d E.
        - left. exists d. reflexivity.
        - destruct d as [|b d]; cbn [app] in E.
          + right. injection E as -> E. exists r. reflexivity.
          + injection E as -> E. destruct (IH d E) as [(x & ->)|(y & ->)].
            * left. exists x. reflexivity.
            * right. exists y. reflexivity. }
      destruct HN as [(Na & r0 & n0 & rest & Hr0 & Ep0)|(Nroot & Hsame)].
      * assert (Hd0 : exists x, d = r0 ++ x).
        { exists (removelast (n0 :: rest)). assert (E : d ++ [n] = (r0 ++ removelast (n0 :: rest)) ++ [last (n0 :: rest) ""]).
          { rewrite <- app_assoc, <- app_removelast_last by discriminate. congruence. }
          apply app_inj_tail in E as [-> _]. reflexivity. }
        destruct Hd0 as (x & Ex). rewrite Ex in Dd.
        destruct (W r0 x Hr0 Dd) as [H|(k & p & H1 & H2 & H3)].
        -- right. exists (ch_kind c), (ch_path c). split; [|split; auto].
           apply in_or_app. right. replace (mask (ch_kind c)) with true by (destruct Kd as [-> | ->]; reflexivity).
           unfold watched_parent. rewrite Ep, split_last_app. rewrite <- Ex in H. apply existsb_path in H. rewrite H. left. reflexivity.
        -- right. exists k, p. split; [apply in_or_app; auto|]. split; auto.
           apply (prefix_trans _ (r0 ++ x)); auto. apply (prefix_trans _ (ch_path c)); auto.
           rewrite <- Ex, Ep. apply prefix_spec. exists [n]. reflexivity.
      * rewrite Hsame in Hd by auto. destruct Hp as [(x & Ex)|(y & Ey)].
        -- rewrite Ex in Dd. destruct (W r x Hr Dd) as [H|(k & p & H1 & H2 & H3)].
           ++ right. exists (ch_kind c), (ch_path c). split; [|split; auto].
              apply in_or_app. right. replace (mask (ch_kind c)) with true by (destruct Kd as [-> | ->]; reflexivity).
              unfold watched_parent. rewrite Ep, split_last_app. rewrite <- Ex in H. apply existsb_path in H. rewrite H. left. reflexivity.
           ++ right. exists k, p. split; [apply in_or_app; auto|]. split; auto.
              apply (prefix_trans _ (r ++ x)); auto. apply (prefix_trans _ (ch_path c)); auto.
              rewrite <- Ex, Ep. apply prefix_spec. exists [n]. reflexivity.
        -- exfalso. exact (Nroot r y Hr Ey).
    + apply Old; auto. rewrite <- Same; auto.
Qed.

Lemma changed_queue s c : (forall k p, In (k, p) (c_queue s) -> handled k = true) -> Watches s -> change_ok (c_fs s) c ->
  noticeable (c_roots s) c -> c_queue (change_tree s c) <> [].
Proof.
  intros _ (_ & W) (_ & _ & (d & n & Ep & Dd) & _) (Na & r0 & n0 & rest & Hr0 & Ep0).
  assert (Hd0 : exists x, d = r0 ++ x).
  { exists (removelast (n0 :: rest)). assert (E : d ++ [n] = (r0 ++ removelast (n0 :: rest)) ++ [last (n0 :: rest) ""]).
    { rewrite <- app_assoc, <- app_removelast_last by discriminate. congruence. }
    apply app_inj_tail in E as [-> _]. reflexivity. }
  destruct Hd0 as (x & Ex). rewrite Ex in Dd. cbn [change_tree c_queue].
  destruct (W r0 x Hr0 Dd) as [H|(k & p & H1 & _)].
  - replace (mask (ch_kind c)) with true by (destruct (ch_kind c); try reflexivity; congruence).
    unfold watched_parent. rewrite Ep, split_last_app. rewrite <- Ex in H. apply existsb_path in H. rewrite H.
    intros K. apply app_eq_nil in K as [_ K]. discriminate.
  - intros K. apply app_eq_nil in K as [K _]. rewrite K in H1. destruct H1.
Qed.
Lemma change_keeps s c : c_policy (change_tree s c) = c_policy s /\ c_outdated (change_tree s c) = c_outdated s /\
  c_watching (change_tree s c) = c_watching s /\ c_roots (change_tree s c) = c_roots s /\ c_fs (change_tree s c) = ch_new c.
Proof. repeat split. Qed.

Lemma inv_change lg fu paths s c : Inv lg fu paths s -> change_ok (c_fs s) c ->
  covered lg fu paths s (LChange c) -> Inv lg fu paths (change_tree s c).
Proof.
  intros (W & F) Hc Cv. unfold covered in Cv. split.
  - cbn [change_tree c_watching]. intros Hw. specialize (W Hw). rewrite Hw in Cv.
    apply watches_change; auto. destruct Cv as [(A & B & _)|Cv]; auto.
  - destruct F as [F|[[Hw Hq]|(rs & Hp & Hl)]].
    + left. exact F.
    + right. left. split; [exact Hw|]. cbn [change_tree c_queue]. intros K. apply app_eq_nil in K as [K _]. contradiction.
    + destruct Cv as [(_ & _ & E)|Cv].
      * right. right. exists rs. cbn [change_tree c_policy c_fs]. rewrite E. auto.
      * destruct (c_watching s) eqn:Hw; [|left; exact Cv].
        right. left. split; [exact Hw|]. apply changed_queue; auto. apply (W eq_refl).
Qed.

Lemma during_watches s l : Watches s -> changes_ok (c_fs s) l -> Forall (noticeable (c_roots s)) l ->
  let s1 := fold_left change_tree l s in
  Watches s1 /\ (l <> [] -> c_queue s1 <> []) /\ c_watching s1 = c_watching s /\ c_roots s1 = c_roots s.
Proof.
  revert s. induction l as [|c l IH]; intros s W Hc F; cbn [fold_left].
  - split; [exact W|]. split; [congruence|]. auto.
  - destruct Hc as [Hc Hl]. inversion F as [|? ? F1 F2]; subst.
    destruct (IH (change_tree s c)) as (A & B & C & D); auto.
    { apply watches_change; auto. }
    split; [exact A|]. split; [|split; [exact C|exact D]]. intros _.
    destruct l as [|c' l].
    + cbn [fold_left]. apply changed_queue; auto. apply W.
    + apply B. discriminate.
Qed.
Lemma watches_weaken s p o : Watches s -> Watches (mkCache (c_fs s) p o (c_watching s) (c_roots s) (c_dirs s) (c_queue s)).
Proof. intros W. exact W. Qed.

Lemma inv_step lg fu ul paths s l s' : Inv lg fu paths s -> covered lg fu paths s l ->
  cache_step lg fu ul paths s l s' -> Inv lg fu paths s'.
Proof.
  intros I Cv H. destruct H as [s c Hc|s Hw|s s' Hd|s during load a s' Hch Hno Hload Hg].
  - apply inv_change; auto.
  - destruct I as (_ & F). split.
    + intros _. split; [intros k p []|]. cbn [initialize_watcher c_roots c_fs c_dirs c_queue].
      intros r q Hr Hd. left. apply in_flat_map. exists r. split; [exact Hr|]. apply dirs_under_In. split; auto.
      apply prefix_spec. exists q. reflexivity.
    + destruct F as [F|[[Hw' _]|F]]; [left; exact F|congruence|right; right; exact F].
  - unfold deliver in Hd. destruct (c_queue s) as [|[k p] q] eqn:Eq; [discriminate|]. injection Hd as <-.
    destruct I as (W & F). split.
    + cbn [c_watching]. intros Hw. destruct (W Hw) as (Hh & Wd). rewrite Eq in Hh, Wd. split.
      * cbn [c_queue]. intros k' p' Hi. apply (Hh k' p'). right. exact Hi.
      * cbn [c_roots c_fs c_dirs c_queue]. intros r x Hr Hx. destruct (Wd r x Hr Hx) as [Hin|(k' & p' & [Hi|Hi] & Hk & Hp)].
        -- left. destruct k; auto; apply in_or_app; auto.
        -- injection Hi as -> ->. left. assert (In (r ++ x) (dirs_under (c_fs s) p')) as Hu by (apply dirs_under_In; auto).
           destruct Hk as [-> | ->]; apply in_or_app; auto.
        -- right. exists k', p'. auto.
    + destruct (c_watching s) eqn:Hw.
      * left. cbn [c_outdated]. destruct (W eq_refl) as (Hh & _). rewrite (Hh k p); [apply orb_true_r|]. rewrite Eq. left. reflexivity.
      * destruct F as [F|[[Hw' _]|F]]; [left; cbn [c_outdated]; rewrite F; reflexivity|congruence|right; right; exact F].
  - unfold get_policy in Hg. destruct (c_outdated s) eqn:Eo.
    + unfold covered in Cv. destruct (c_watching s) eqn:Hw.
      * destruct I as (W & _). destruct (during_watches s during (W Hw) Hch Cv) as (A & B & C & D).
        set (s1 := fold_left change_tree during s) in *.
        assert (Eo1 : c_outdated s1 = true).
        { unfold s1. rewrite <- Eo. clear. revert s. induction during as [|c l IH]; intros s; [reflexivity|]. cbn [fold_left]. rewrite IH. reflexivity. }
        destruct load as [p|e]; injection Hg as <- <-.
        -- split; [intros _; apply watches_weaken, A|].
           destruct during as [|c l].
           ++ right. right. exists p. cbn [c_policy c_fs]. split; auto. unfold s1. cbn [fold_left]. symmetry. apply Hload. reflexivity.
           ++ right. left. cbn [c_watching c_queue]. split; [congruence|]. apply B. discriminate.
        -- split; [intros _; exact A|]. left. exact Eo1.
      * subst during. cbn [fold_left] in Hg. destruct I as (W & F).
        destruct load as [p|e]; injection Hg as <- <-.
        -- split; [cbn [c_watching]; congruence|]. right. right. exists p. cbn [c_policy c_fs]. split; auto. symmetry. apply Hload. reflexivity.
        -- split; auto.
    + injection Hg as <- <-. exact I.
Qed.

(** ** C34, C35 *)
(** Once all notifications are delivered, an answer is what loading the files yields now,
    be it a policy or an error. [_partial]: changes as [covered] says; the initial load, if
    not lazy, is not disturbed. Each condition is needed, see below. *)
Theorem C34_current_partial lg fu ul paths lazy f during load s0 h s load' a s' :
  wf_fs f -> new_cache lazy f during load = Ok s0 ->
  (lazy = false -> during = [] /\ load = load_policy f lg fu paths) ->
  reach lg fu ul paths (covered lg fu paths) s0 h s ->
  c_watching s = true -> c_queue s = [] ->
  cache_step lg fu ul paths s (LRequest [] load' a) s' ->
  a = match load_policy (c_fs s) lg fu paths with Ok rs => Ok (Some rs) | Err e => Err e end.
Proof.
  intros Wf Hn Hl R Hw Hq St.
  assert (I0 : Inv lg fu paths s0).
  { unfold new_cache in Hn. destruct lazy.
    - injection Hn as <-. split; [discriminate|left; reflexivity].
    - destruct (Hl eq_refl) as (-> & Eload). destruct load as [p|]; [|discriminate]. cbn [fold_left] in Hn. injection Hn as <-.
      split; [discriminate|]. right. right. exists p. auto. }
  assert (I : Inv lg fu paths s).
  { clear Hw Hq St. induction R; auto. eapply inv_step; eauto. }
  inversion St as [| | |? ? ? ? ? Hch Hno Hload Hg]; subst. specialize (Hload eq_refl). subst load'.
  unfold get_policy in Hg. destruct (c_outdated s) eqn:Eo.
  - cbn [fold_left] in Hg. destruct (load_policy (c_fs s) lg fu paths); injection Hg as <- _; reflexivity.
  - injection Hg as <- _. destruct I as (_ & [F|[[_ F]|(rs & -> & ->)]]); [congruence|congruence|reflexivity].
Qed.

(** For all histories: an answer is the outcome of a load after which no notification has
    been delivered and no load has failed: either this request has loaded, or an earlier
    one, or the constructor. *)
Definition loaded (l : label) (p : list rule) : Prop := exists during, l = LRequest during (Ok p) (Ok (Some p)).
Definition quiet (l : label) : Prop := l <> LDeliver /\ forall during load e, l <> LRequest during load (Err e).
Lemma queue_change s c : (forall k p, In (k, p) (c_queue s) -> handled k = true) ->
  forall k p, In (k, p) (c_queue (change_tree s c)) -> handled k = true.
Proof.
  intros H k p Hi. cbn [change_tree c_queue] in Hi. apply in_app_or in Hi as [Hi|Hi]; [eauto|].
  destruct (mask (ch_kind c)) eqn:E; [|destruct Hi]. cbn [andb] in Hi.
  destruct (watched_parent _ _); [|destruct Hi]. destruct Hi as [K|[]]. injection K as <- <-. apply mask_handled, E.
Qed.
Lemma queue_changes l : forall s, (forall k p, In (k, p) (c_queue s) -> handled k = true) ->
  forall k p, In (k, p) (c_queue (fold_left change_tree l s)) -> handled k = true.
Proof. induction l as [|c l IH]; intros s H; [exact H|]. cbn [fold_left]. apply IH, queue_change, H. Qed.
Lemma queue_handled lg fu ul paths lazy f during load s0 h s : new_cache lazy f during load = Ok s0 ->
  reach lg fu ul paths anything s0 h s -> forall k p, In (k, p) (c_queue s) -> handled k = true.
Proof.
  intros Hn R. induction R as [|h s l s' R IH _ St].
  - unfold new_cache in Hn. destruct lazy; [injection Hn as <-; intros k p []|].
    destruct load as [p|]; [|discriminate]. injection Hn as <-. apply queue_changes. intros k q [].
  - destruct St as [s c Hc|s Hw|s s' Hd|s dur ld' a' s' Hch Hno Hload Hg].
    + apply queue_change, IH.
    + intros k p [].
    + unfold deliver in Hd. destruct (c_queue s) as [|[k p] q]; [discriminate|]. injection Hd as <-.
      intros k' p' Hi. apply (IH k' p'). right. exact Hi.
    + unfold get_policy in Hg. destruct (c_outdated s).
      * destruct ld'; injection Hg as <- <-; [|apply queue_changes, IH]. apply (queue_changes dur s IH).
      * injection Hg as <- <-. exact IH.
Qed.
Theorem C34_source lg fu ul paths lazy f during load s0 h s d ld a s' :
  new_cache lazy f during load = Ok s0 ->
  reach lg fu ul paths anything s0 h s ->
  cache_step lg fu ul paths s (LRequest d ld a) s' ->
  match a with
  | Err e => c_outdated s = true /\ ld = Err e        (* this request has loaded, in vain *)
  | Ok None => False
  | Ok (Some p) =>
      c_outdated s = true /\ ld = Ok p \/
      (exists h1 l h2, h = h1 ++ l :: h2 /\ loaded l p /\ Forall quiet h2) \/
      (lazy = false /\ load = Ok p /\ Forall quiet h)
  end.
Proof.
  intros Hn R St.
  assert (Q0 : forall k p, In (k, p) (c_queue s) -> handled k = true) by (eapply queue_handled; eauto).
  assert (G : c_outdated s = true \/ exists p, c_policy s = Some p /\
    ((exists h1 l h2, h = h1 ++ l :: h2 /\ loaded l p /\ Forall quiet h2) \/ (lazy = false /\ load = Ok p /\ Forall quiet h))).
  { clear St Q0. induction R as [|h s l s1' R IH _ St].
    - unfold new_cache in Hn. destruct lazy; [injection Hn as <-; left; reflexivity|].
      destruct load as [p|]; [|discriminate]. injection Hn as <-. right. exists p. split.
      + assert (K : forall l s, c_policy (fold_left change_tree l s) = c_policy s).
        { induction l as [|c l IHl]; intros s1; [reflexivity|]. cbn [fold_left]. rewrite IHl. reflexivity. }
        rewrite K. reflexivity.
      + right. auto.
    - assert (Carry : forall t, c_policy t = c_policy s -> quiet l ->
        (exists p, c_policy s = Some p /\ ((exists h1 l h2, h = h1 ++ l :: h2 /\ loaded l p /\ Forall quiet h2) \/ (lazy = false /\ load = Ok p /\ Forall quiet h))) ->
        exists p, c_policy t = Some p /\ ((exists h1 l' h2, h ++ [l] = h1 ++ l' :: h2 /\ loaded l' p /\ Forall quiet h2) \/ (lazy = false /\ load = Ok p /\ Forall quiet (h ++ [l])))).
      { intros t Et Q (p & Hp & [(h1 & l1 & h2 & -> & Hl & Hq)|(A & B & C)]); exists p; (split; [congruence|]).
        - left. exists h1, l1, (h2 ++ [l]). split; [rewrite <- app_assoc; reflexivity|]. split; auto. apply Forall_app. auto.
        - right. split; auto. split; auto. apply Forall_app. auto. }
      destruct St as [t c Hc|t Hw|t t' Hd|t dur ld' a' t' Hch Hno Hload Hg].
      + destruct IH as [IH|IH]; [left; exact IH|]. right. apply Carry; [reflexivity|split; [discriminate|intros ? ? ? K; discriminate]|exact IH].
      + destruct IH as [IH|IH]; [left; exact IH|]. right. apply Carry; [reflexivity|split; [discriminate|intros ? ? ? K; discriminate]|exact IH].
      + unfold deliver in Hd. destruct (c_queue t) as [|[k p] q] eqn:Eq; [discriminate|]. injection Hd as <-.
        left. cbn [c_outdated]. rewrite (queue_handled _ _ _ _ _ _ _ _ _ _ _ Hn R k p) by (rewrite Eq; left; reflexivity). apply orb_true_r.
      + unfold get_policy in Hg. destruct (c_outdated t) eqn:Eo.
        * destruct ld' as [p|e]; injection Hg as <- <-.
          -- right. exists p. split; [reflexivity|]. left. exists h, (LRequest dur (Ok p) (Ok (Some p))), [].
             split; [reflexivity|]. split; [exists dur; reflexivity|constructor].
          -- left. assert (K : forall l s, c_outdated (fold_left change_tree l s) = c_outdated s).
             { induction l as [|c l IHl]; intros s1; [reflexivity|]. cbn [fold_left]. rewrite IHl. reflexivity. }
             rewrite K. exact Eo.
        * injection Hg as <- <-. destruct IH as [IH|IH]; [discriminate|]. right.
          apply Carry; [reflexivity| |exact IH]. split; [discriminate|]. intros ? ? ? K. discriminate. }
  inversion St as [| | |? ? ? ? ? Hch Hno Hload Hg]; subst. unfold get_policy in Hg. destruct (c_outdated s) eqn:Eo.
  - destruct ld as [p|e]; injection Hg as <- _; auto.
  - injection Hg as <- _. destruct G as [G|(p & -> & G)]; [congruence|]. right. exact G.
Qed.
(** So a policy that does not load stops the service (of this request), whatever was loaded
    before, until it loads again *)
Theorem C34_no_old_policy lg fu ul paths lazy f during load s0 h s d1 ld1 e s1 h2 s2 d2 ld2 a s3 :
  new_cache lazy f during load = Ok s0 ->
  reach lg fu ul paths anything s0 h s ->
  cache_step lg fu ul paths s (LRequest d1 ld1 (Err e)) s1 ->
  reach lg fu ul paths anything s1 h2 s2 ->
  (forall d ld p, ~ In (LRequest d ld (Ok (Some p))) h2) ->
  cache_step lg fu ul paths s2 (LRequest d2 ld2 a) s3 ->
  c_outdated s2 = true /\ a = match ld2 with Ok p => Ok (Some p) | Err e => Err e end.
Proof.
  intros Hn R St R2 No St2.
  assert (K : forall l t, c_outdated (fold_left change_tree l t) = c_outdated t).
  { induction l as [|c l IHl]; intros t; [reflexivity|]. cbn [fold_left]. rewrite IHl. reflexivity. }
  assert (O1 : c_outdated s1 = true).
  { inversion St as [| | |? ? ? ? ? Hch Hno Hload Hg]; subst. unfold get_policy in Hg. destruct (c_outdated s) eqn:Eo; [|discriminate].
    destruct ld1; [discriminate|]. injection Hg as _ <-. rewrite K. exact Eo. }
  assert (O2 : c_outdated s2 = true).
  { clear St2. induction R2 as [|h2 t l t' R2 IH _ Hs]; [exact O1|].
    assert (IH' : c_outdated t = true) by (apply IH; intros d ld p Hi; apply (No d ld p), in_or_app; auto).
    destruct Hs as [t c Hc|t Hw|t t' Hd|t dur ld' a' t' Hch Hno Hload Hg].
    - exact IH'.
    - exact IH'.
    - unfold deliver in Hd. destruct (c_queue t) as [|[k p] q]; [discriminate|]. injection Hd as <-. cbn [c_outdated]. rewrite IH'. reflexivity.
    - unfold get_policy in Hg. rewrite IH' in Hg. destruct ld' as [p|x]; injection Hg as <- <-.
      + exfalso. apply (No dur (Ok p) p), in_or_app. right. left. reflexivity.
      + rewrite K. exact IH'. }
  split; [exact O2|]. inversion St2 as [| | |? ? ? ? ? Hch Hno Hload Hg]; subst. unfold get_policy in Hg. rewrite O2 in Hg.
  destruct ld2; injection Hg as <- _; reflexivity.
Qed.

(** ** C35: start-up *)
(** With lazy loading no change is missed, also before the watches exist, provided requests
    come after that *)
Definition careful_start (lg : path) (fu : nat) (paths : list path) (s : cache) (l : label) : Prop :=
  if c_watching s then covered lg fu paths s l else forall d ld a, l <> LRequest d ld a.
Theorem C35_lazy lg fu ul paths f during load s0 h s load' a s' :
  wf_fs f -> new_cache true f during load = Ok s0 ->
  reach lg fu ul paths (careful_start lg fu paths) s0 h s ->
  c_watching s = true -> c_queue s = [] ->
  cache_step lg fu ul paths s (LRequest [] load' a) s' ->
  a = match load_policy (c_fs s) lg fu paths with Ok rs => Ok (Some rs) | Err e => Err e end.
Proof.
  intros Wf Hn R Hw Hq St. eapply C34_current_partial with (h := h); eauto; [discriminate|].
  clear Hw Hq St.
  assert (G : reach lg fu ul paths (covered lg fu paths) s0 h s /\ (c_watching s = false -> c_outdated s = true)).
  { induction R as [|h s l s1' R IH P St].
    - split; [constructor|]. injection Hn as <-. auto.
    - destruct IH as [IH1 IH2]. assert (Cv : covered lg fu paths s l).
      { unfold careful_start in P. destruct (c_watching s) eqn:Hw; [exact P|]. unfold covered. rewrite Hw. destruct l; auto. exfalso. eapply P; reflexivity. }
      split; [econstructor; eauto|]. intros Hw'.
      destruct St as [t c Hc|t Hw|t t' Hd|t dur ld' a' t' Hch Hno Hload Hg].
      + apply IH2. exact Hw'.
      + discriminate.
      + unfold deliver in Hd. destruct (c_queue t) as [|[k p] q]; [discriminate|]. injection Hd as <-. cbn [c_outdated c_watching] in *. rewrite IH2 by exact Hw'. reflexivity.
      + unfold careful_start in P. destruct (c_watching t) eqn:Hw; [|exfalso; eapply P; reflexivity].
        exfalso. assert (K : forall l z, c_watching (fold_left change_tree l z) = c_watching z).
        { induction l as [|c l IHl]; intros z; [reflexivity|]. cbn [fold_left]. rewrite IHl. reflexivity. }
        unfold get_policy in Hg. destruct (c_outdated t); [destruct ld'|]; injection Hg as <- <-; cbn [c_watching] in Hw'; rewrite ?K in Hw'; congruence. }
  apply G.
Qed.

(** ** Examples and counterexamples *)
Definition ex_paths : list path := ex_dirs.
Definition ex_write (f : fs) (k : kind) (p : path) (n : node) : change := mkChange k p (fset f p n).
Definition ex_new : node := L ["qubes.Gpg * work vault deny"].
Definition ex_policy_of (f : fs) : res (list rule) := load_policy f POLICYPATH_OLD 5 ex_paths.
Definition ex_start : res cache := new_cache false ex_fs [] (ex_policy_of ex_fs).

Lemma fset_change_ok f k p d n0 n : wf_fs f -> p = d ++ [n0] -> fget f d = Some NDir ->
  (forall q r, q = p ++ r -> r <> [] -> fget f q = None) -> n <> NDir -> change_ok f (ex_write f k p n).
Proof.
  intros W Ep Dd Nb Nn. assert (B : forall q, prefix_path p q = true -> fget (fset f p n) q <> Some NDir).
  { intros q Pq. apply prefix_spec in Pq as (r & ->). destruct r as [|a r].
    - rewrite app_nil_r, fget_fset. congruence.
    - rewrite fget_fset_other; [rewrite (Nb (p ++ a :: r) (a :: r)); discriminate || auto|]. intros K. rewrite <- (app_nil_r p) in K at 2. apply app_inv_head in K. discriminate. }
  split; [apply wf_fset, W|]. split; [|split].
  - cbn [ex_write ch_path ch_new]. intros q Hq. apply fget_fset_other. intros ->. assert (prefix_path p p = true) by (apply prefix_spec; exists []; now rewrite app_nil_r). congruence.
  - exists d, n0. auto.
  - cbn [ex_write ch_kind ch_path ch_new]. destruct k; auto.
Qed.
Lemma ex_leaf p : In p (map fst ex_fs) -> fget ex_fs p <> Some NDir -> forall q r, q = p ++ r -> r <> [] -> fget ex_fs q = None.
Proof.
  intros Hp Hn q r -> Hr. destruct (fget ex_fs (p ++ r)) eqn:E; [|reflexivity]. exfalso.
  assert (Hi : In (p ++ r) (map fst ex_fs)) by (apply fget_In; congruence).
  cbn [ex_fs map fst POLICYPATH POLICYPATH_OLD app] in Hp, Hi. clear E.
  repeat (destruct Hp as [<-|Hp]; [try (exfalso; apply Hn; reflexivity); cbn [app] in Hi;
    repeat (destruct Hi as [Hi|Hi]; [try discriminate Hi; injection Hi as Hi; congruence|]); destruct Hi|]). destruct Hp.
Qed.

(** a change, and the next request *)
Definition answer_after (s : cache) : res (option (list rule)) := fst (get_policy s [] (ex_policy_of (c_fs s))).
Lemma request_step s : cache_step POLICYPATH_OLD 5 true ex_paths s (LRequest [] (ex_policy_of (c_fs s)) (answer_after s)) (snd (get_policy s [] (ex_policy_of (c_fs s)))).
Proof. apply cs_request; auto; [exact I|]. unfold answer_after. destruct (get_policy s [] (ex_policy_of (c_fs s))). reflexivity. Qed.
Definition state_of (r : res cache) : cache := match r with Ok s => s | Err _ => mkCache [] None true false [] [] [] end.
Definition ex0 : cache := state_of ex_start.
Definition ex1 : cache := initialize_watcher true ex_paths ex0.
Definition ex_modify : change := ex_write ex_fs IN_MODIFY ["run"; "qubes"; "policy.d"; "30-user.policy"] ex_new.
Definition ex2 : cache := change_tree ex1 ex_modify.
Definition ex3 : cache := match deliver ex2 with Some s => s | None => ex2 end.
Lemma ex_modify_ok : change_ok ex_fs ex_modify.
Proof.
  apply (fset_change_ok _ _ _ ["run"; "qubes"; "policy.d"] "30-user.policy"); try reflexivity; [exact ex_fs_wf| |discriminate].
  apply ex_leaf; [vm_compute; tauto|vm_compute; discriminate].
Qed.
Example C34_example : ex_start = Ok ex0 /\
  reach POLICYPATH_OLD 5 true ex_paths (covered POLICYPATH_OLD 5 ex_paths) ex0 [LWatch; LChange ex_modify; LDeliver] ex3 /\
  c_watching ex3 = true /\ c_queue ex3 = [] /\ length (c_roots ex3) = 3 /\
  answer_after ex2 <> answer_after ex3 /\
  answer_after ex3 = match ex_policy_of (c_fs ex3) with Ok rs => Ok (Some rs) | Err e => Err e end.
Proof.
  split; [vm_compute; reflexivity|]. split.
  { apply (re_step _ _ _ _ _ _ [LWatch; LChange ex_modify] ex2).
    - apply (re_step _ _ _ _ _ _ [LWatch] ex1).
      + apply (re_step _ _ _ _ _ _ [] ex0 LWatch); [constructor|exact I|]. apply cs_watch. vm_compute. reflexivity.
      + right. replace (c_watching ex1) with true by reflexivity. split; [discriminate|].
        exists RUNTIME_POLICY_PATH, "30-user.policy", []. split; [vm_compute; tauto|reflexivity].
      + apply cs_change. replace (c_fs ex1) with ex_fs by (vm_compute; reflexivity). exact ex_modify_ok.
    - exact I.
    - apply cs_deliver. vm_compute. reflexivity. }
  split; [vm_compute; reflexivity|]. split; [vm_compute; reflexivity|]. split; [vm_compute; reflexivity|].
  split; [vm_compute; discriminate|vm_compute; reflexivity].
Qed.

(** an old policy [rs] is served although all notifications are delivered *)
Definition stale (h : list label) (s : cache) : Prop :=
  reach POLICYPATH_OLD 5 true ex_paths anything ex0 h s /\ c_watching s = true /\ c_queue s = [] /\
  exists rs s', cache_step POLICYPATH_OLD 5 true ex_paths s (LRequest [] (ex_policy_of (c_fs s)) (Ok (Some rs))) s' /\
    ex_policy_of (c_fs s) <> Ok rs.
Lemma stale_change c : change_ok ex_fs c ->
  mask (ch_kind c) && watched_parent (c_dirs ex1) (ch_path c) = false ->
  ex_policy_of (ch_new c) <> ex_policy_of ex_fs -> stale [LWatch; LChange c] (change_tree ex1 c).
Proof.
  intros Ok Nm Df. assert (Ef : c_fs ex1 = ex_fs) by (vm_compute; reflexivity).
  split; [|split; [reflexivity|split]].
  - apply (re_step _ _ _ _ _ _ [LWatch] ex1).
    + apply (re_step _ _ _ _ _ _ [] ex0 LWatch); [constructor|exact I|]. apply cs_watch. vm_compute. reflexivity.
    + exact I.
    + apply cs_change. rewrite Ef. exact Ok.
  - unfold change_tree. cbn [c_queue]. rewrite Nm. reflexivity.
  - destruct (ex_policy_of ex_fs) as [rs|] eqn:El; [|vm_compute in El; discriminate].
    exists rs, (change_tree ex1 c). split.
    + pose proof (request_step (change_tree ex1 c)) as St.
      assert (E : get_policy (change_tree ex1 c) [] (ex_policy_of (c_fs (change_tree ex1 c))) = (Base.Ok (Some rs), change_tree ex1 c)).
      { unfold get_policy. replace (c_outdated (change_tree ex1 c)) with false by (vm_compute; reflexivity).
        replace (c_policy (change_tree ex1 c)) with (Some rs); [reflexivity|]. cbn [change_tree c_policy].
        assert (E : c_policy ex1 = match ex_policy_of ex_fs with Base.Ok rs => Some rs | Err _ => None end) by (vm_compute; reflexivity).
        rewrite E, El. reflexivity. }
      unfold answer_after in St. rewrite E in St. exact St.
    + exact Df.
Qed.
(** a policy file that can no longer be read: such a change is not watched *)
Theorem C34_permissions_refuted : exists c,
  ch_new c = fset ex_fs (POLICYPATH ++ ["90-default.policy"]) (NFile None) /\ stale [LWatch; LChange c] (change_tree ex1 c).
Proof.
  exists (ex_write ex_fs IN_ATTRIB (POLICYPATH ++ ["90-default.policy"]) (NFile None)). split; [reflexivity|].
  apply stale_change.
  - apply (fset_change_ok _ _ _ POLICYPATH "90-default.policy"); try reflexivity; [exact ex_fs_wf| |discriminate].
    apply ex_leaf; [vm_compute; tauto|vm_compute; discriminate].
  - reflexivity.
  - vm_compute. discriminate.
Qed.
(** the directory of the policy is moved away: only what is in it is watched *)
Definition without (f : fs) (p : path) : fs := filter (fun x => negb (prefix_path p (fst x))) f.
Lemma without_get f p q : prefix_path p q = false -> fget (without f p) q = fget f q.
Proof.
  intros N. induction f as [|[x n] f IH]; [reflexivity|]. unfold without in *. cbn [filter fst fget].
  destruct (prefix_path p x) eqn:P; cbn [negb fget].
  - destruct (path_eqb_spec q x) as [->|]; [congruence|]. exact IH.
  - destruct (path_eqb_spec q x); auto.
Qed.
Lemma without_below f p q : prefix_path p q = true -> fget (without f p) q = None.
Proof.
  intros N. induction f as [|[x n] f IH]; [reflexivity|]. unfold without in *. cbn [filter fst fget].
  destruct (prefix_path p x) eqn:P; cbn [negb fget]; auto.
  destruct (path_eqb_spec q x) as [->|]; [congruence|exact IH].
Qed.
Theorem C34_moved_directory_refuted : exists c,
  ch_new c = without ex_fs POLICYPATH /\ stale [LWatch; LChange c] (change_tree ex1 c).
Proof.
  exists (mkChange IN_MOVED_FROM POLICYPATH (without ex_fs POLICYPATH)). split; [reflexivity|]. apply stale_change.
  - split; [|split; [|split]]; cbn [ch_kind ch_path ch_new].
    + vm_compute. repeat (constructor; [cbn; intuition discriminate|]). constructor.
    + intros q. apply without_get.
    + exists ["etc"; "qubes"], "policy.d". split; reflexivity.
    + intros q Hq. rewrite without_below by exact Hq. discriminate.
  - vm_compute. reflexivity.
  - vm_compute. discriminate.
Qed.
(** C35: a change after loading and before the watches exist is missed for good, that is,
    until the next change *)
Definition ex_missed : cache := initialize_watcher true ex_paths (change_tree ex0 ex_modify).
Theorem C35_refuted : change_ok ex_fs ex_modify /\ stale [LChange ex_modify; LWatch] ex_missed.
Proof.
  split; [exact ex_modify_ok|]. split; [|split; [reflexivity|split; [reflexivity|]]].
  - apply (re_step _ _ _ _ _ _ [LChange ex_modify] (change_tree ex0 ex_modify)).
    + apply (re_step _ _ _ _ _ _ [] ex0 (LChange ex_modify)); [constructor|exact I|]. apply cs_change.
      replace (c_fs ex0) with ex_fs by (vm_compute; reflexivity). exact ex_modify_ok.
    + exact I.
    + apply cs_watch. vm_compute. reflexivity.
  - pose proof (request_step ex_missed) as St.
    destruct (answer_after ex_missed) as [[rs|]|] eqn:E; try (vm_compute in E; discriminate).
    exists rs. eexists. split; [exact St|]. vm_compute in E. injection E as <-. vm_compute. discriminate.
Qed.
(** a file elsewhere that the policy includes is not watched *)
Definition ex_out : path := ["etc"; "shared"].
Definition ex_out_fs (l : list string) : fs :=
  (ex_out, L l) :: fset ex_fs (POLICYPATH ++ ["90-default.policy"]) (L ["!include /etc/shared"]).
Definition ex_out0 : cache := state_of (new_cache false (ex_out_fs ["# nothing"]) [] (ex_policy_of (ex_out_fs ["# nothing"]))).
Definition ex_out_change : change := ex_write (ex_out_fs ["# nothing"]) IN_MODIFY ex_out (L ["* * @anyvm @anyvm deny"]).
Definition ex_out1 : cache := change_tree (initialize_watcher true ex_paths ex_out0) ex_out_change.
Theorem C34_outside_refuted :
  c_fs ex_out1 = ex_out_fs ["* * @anyvm @anyvm deny"] /\ c_queue ex_out1 = [] /\
  match answer_after ex_out1, ex_policy_of (c_fs ex_out1) with
  | Ok (Some old), Ok new => In (mkRule None None TAny TAny (Deny true) "/etc/shared") new /\ ~ In (mkRule None None TAny TAny (Deny true) "/etc/shared") old
  | _, _ => False
  end.
Proof.
  split; [vm_compute; reflexivity|]. split; [vm_compute; reflexivity|].
  destruct (answer_after ex_out1) as [[old|]|] eqn:E1; try (vm_compute in E1; discriminate).
  destruct (ex_policy_of (c_fs ex_out1)) as [new|] eqn:E2; [|vm_compute in E2; discriminate].
  vm_compute in E1. injection E1 as <-. vm_compute in E2. injection E2 as <-. split.
  - repeat (try (left; reflexivity); right).
  - intros K. repeat (destruct K as [K|K]; [discriminate|]). destruct K.
Qed.
