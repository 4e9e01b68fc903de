From Coq Require Import String Ascii List Bool Arith Lia.
From Verif Require Import Base SysInfo TokenProofs MatchProofs.
Import ListNotations.
Open Scope string_scope.
Open Scope list_scope.

(** A well-formed answer of qubesd: distinct plain names, distinct uuids *)
Record wf_raw (raw : info) : Prop := {
  wr_names : NoDup (map fst raw);
  wr_plain : forall n d, In (n, d) raw -> plain_name n = true;
  wr_uuids : forall n1 d1 n2 d2 u, In (n1, d1) raw -> In (n2, d2) raw ->
     d_uuid d1 = Some u -> d_uuid d2 = Some u -> n1 = n2
}.

Lemma dset_keys {V} (d : list (string * V)) k v : NoDup (map fst d) -> NoDup (map fst (dset d k v)).
Proof.
  assert (Hk : forall d' : list (string * V), map fst (dset d' k v) = map fst d' \/
               (dget d' k = None /\ map fst (dset d' k v) = map fst d' ++ [k])).
  { induction d' as [|[k' v'] d' IH]; simpl; auto. destruct (String.eqb_spec k k'); simpl.
    - subst. auto.
    - destruct IH as [->|[-> ->]]; auto. }
  intros Hnd. destruct (Hk d) as [->|[Hn ->]]; auto.
  apply dget_None in Hn. induction (map fst d) as [|x l IH]; simpl.
  - constructor; [simpl; tauto|constructor].
  - inv Hnd. constructor.
    + rewrite in_app_iff. simpl. intros [?|[<-|[]]]; auto. apply Hn. left; auto.
    + apply IH; auto. intros H. apply Hn. right; auto.
Qed.

Definition step (acc : info) (e : string * dom) : info :=
  let '(n, d) := e in
  let acc1 := dset acc n (set_name n d) in
  match d_uuid d with Some u => dset acc1 ("uuid:" +++ u) (set_name n d) | None => acc1 end.
Lemma add_uuid_keys_step acc n d todo :
  add_uuid_keys acc ((n, d) :: todo) = add_uuid_keys (step acc (n, d)) todo.
Proof. simpl. destruct (d_uuid d); reflexivity. Qed.

(** the entry [todo] provides for key [k] *)
Definition provides (todo : info) (k : string) (d' : dom) : Prop :=
  exists n d, In (n, d) todo /\ d' = set_name n d /\
    (k = n \/ exists u, d_uuid d = Some u /\ k = "uuid:" +++ u).

Lemma provides_fun raw k d1 d2 : wf_raw raw -> provides raw k d1 -> provides raw k d2 -> d1 = d2.
Proof.
  intros W (n1&e1&H1&->&C1) (n2&e2&H2&->&C2).
  assert (n1 = n2).
  { pose proof (plain_not_uuid _ (wr_plain _ W _ _ H1)).
    pose proof (plain_not_uuid _ (wr_plain _ W _ _ H2)).
    destruct C1 as [C1|(u1&Hu1&C1)], C2 as [C2|(u2&Hu2&Hk)]; try congruence.
    - rewrite Hk in C1. subst n1. discriminate.
    - rewrite C1 in C2. subst n2. discriminate.
    - rewrite C1 in Hk. apply (app_inj_l_s "uuid:") in Hk. subst. eapply wr_uuids; eauto. }
  subst. f_equal. pose proof (In_dget _ _ _ (wr_names _ W) H1). pose proof (In_dget _ _ _ (wr_names _ W) H2). congruence.
Qed.

Lemma add_uuid_keys_get raw : wf_raw raw -> forall todo acc k,
  (forall e, In e todo -> In e raw) ->
  (forall d', provides todo k d' -> dget (add_uuid_keys acc todo) k = Some d') /\
  ((forall d', ~ provides todo k d') -> dget (add_uuid_keys acc todo) k = dget acc k).
Proof.
  intros W. induction todo as [|[n d] todo IH]; intros acc k Hin.
  - split; auto. intros d' (n&d&[]&_).
  - rewrite add_uuid_keys_step.
    destruct (IH (step acc (n, d)) k) as [IH1 IH2]; [intros; apply Hin; right; auto|].
    assert (Hst1 : forall d', provides [(n, d)] k d' -> dget (step acc (n, d)) k = Some d').
    { intros d' (n'&e'&[He|[]]&->&C). inv He. unfold step. destruct (d_uuid e') as [u|] eqn:Eu.
      - destruct C as [->|(u'&Hu'&->)].
        + rewrite dget_dset_other; [apply dget_dset_same|].
          intros ->. pose proof (plain_not_uuid _ (wr_plain _ W _ _ (Hin _ (or_introl eq_refl)))). discriminate.
        + inv Hu'. apply dget_dset_same.
      - destruct C as [->|(u'&Hu'&_)]; [apply dget_dset_same|congruence]. }
    assert (Hst2 : (forall d', ~ provides [(n, d)] k d') -> dget (step acc (n, d)) k = dget acc k).
    { intros Hn. assert (k <> n) by (intros ->; eapply Hn; exists n, d; simpl; eauto).
      unfold step. destruct (d_uuid d) as [u|] eqn:Eu.
      - assert (k <> "uuid:" +++ u) by (intros ->; eapply Hn; exists n, d; simpl; eauto 10).
        rewrite dget_dset_other by auto. apply dget_dset_other; auto.
      - apply dget_dset_other; auto. }
    assert (Hsplit : forall d', provides ((n, d) :: todo) k d' <-> provides [(n, d)] k d' \/ provides todo k d').
    { intros d'. unfold provides. split.
      - intros (n'&e'&[He|Hi]&?); [left|right]; exists n', e'; simpl; auto.
      - intros [(n'&e'&[He|[]]&?)|(n'&e'&Hi&?)]; exists n', e'; simpl; auto. }
    assert (Hex : (exists d', provides todo k d') \/ (forall d', ~ provides todo k d')).
    { clear - W. induction todo as [|[n d] t IH].
      - right. intros d' (n&d&[]&_).
      - destruct IH as [[d' (n'&e'&?&?)]|IH].
        + left. exists d'. exists n', e'. simpl. auto.
        + destruct (string_dec k n) as [->|Hk].
          * left. exists (set_name n d), n, d. simpl. auto.
          * destruct (d_uuid d) as [u|] eqn:Eu.
            -- destruct (string_dec k ("uuid:" +++ u)) as [->|Hk2].
               ++ left. exists (set_name n d), n, d. simpl. eauto 10.
               ++ right. intros d' (n'&e'&[He|Hi]&->&C); [inv He; destruct C as [?|(u'&?&?)]; congruence|].
                  eapply IH. exists n', e'. eauto.
            -- right. intros d' (n'&e'&[He|Hi]&->&C); [inv He; destruct C as [?|(u'&?&?)]; congruence|].
               eapply IH. exists n', e'. eauto. }
    assert (Hwf : forall d1 d2, provides ((n,d)::todo) k d1 -> provides ((n,d)::todo) k d2 -> d1 = d2).
    { assert (Hmon : forall d', provides ((n,d)::todo) k d' -> provides raw k d').
      { intros d' (n'&e'&Hi&?). exists n', e'. split; auto. }
      intros d1 d2 H1 H2. eapply provides_fun; eauto. }
    split.
    + intros d' Hp. destruct Hex as [[d2 Hd2]|Hno].
      * rewrite (IH1 _ Hd2). f_equal. apply Hwf; auto. apply Hsplit; auto.
      * apply Hsplit in Hp as [Hp|Hp]; [|exfalso; eapply Hno; eauto].
        rewrite IH2; auto.
    + intros Hno. rewrite IH2.
      * apply Hst2. intros d' Hp. apply (Hno d'). apply Hsplit. auto.
      * intros d' Hp. apply (Hno d'). apply Hsplit. auto.
Qed.

Lemma add_uuid_keys_nodup todo acc : NoDup (map fst acc) -> NoDup (map fst (add_uuid_keys acc todo)).
Proof.
  revert acc. induction todo as [|[n d] todo IH]; intros acc H; auto.
  rewrite add_uuid_keys_step. apply IH. unfold step. destruct (d_uuid d); repeat apply dset_keys; auto.
Qed.

Theorem get_system_info_get raw k d : wf_raw raw ->
  dget (get_system_info raw) k = Some d <-> provides raw k d.
Proof.
  intros W. unfold get_system_info.
  destruct (add_uuid_keys_get raw W raw raw k (fun e H => H)) as [H1 H2]. split.
  - intros H.
    assert (Hex : (exists d', provides raw k d') \/ (forall d', ~ provides raw k d')).
    { clear - W. induction raw as [|[n d] t IH].
      - right. intros d' (n&d&[]&_).
      - assert (W' : wf_raw t).
        { destruct W as [A B C]. simpl in A. inv A. constructor; auto.
          - intros; eapply B; right; eauto.
          - intros; eapply C; try (right; eauto); eauto. }
        destruct (IH W') as [[d' (n'&e'&?&?)]|IH'].
        + left. exists d'. exists n', e'. simpl. auto.
        + destruct (string_dec k n) as [->|Hk].
          * left. exists (set_name n d), n, d. simpl. auto.
          * destruct (d_uuid d) as [u|] eqn:Eu.
            -- destruct (string_dec k ("uuid:" +++ u)) as [->|Hk2].
               ++ left. exists (set_name n d), n, d. simpl. eauto 10.
               ++ right. intros d' (n'&e'&[He|Hi]&->&C); [inv He; destruct C as [?|(u'&?&?)]; congruence|].
                  eapply IH'. exists n', e'. eauto.
            -- right. intros d' (n'&e'&[He|Hi]&->&C); [inv He; destruct C as [?|(u'&?&?)]; congruence|].
               eapply IH'. exists n', e'. eauto. }
    destruct Hex as [[d' Hd']|Hno].
    + rewrite (H1 _ Hd') in H. inv H. auto.
    + rewrite (H2 Hno) in H. exfalso. apply (Hno (set_name k d)). exists k, d. split; auto. apply dget_In; auto.
  - intros H. apply H1; auto.
Qed.

Theorem get_system_info_wf raw : wf_raw raw -> wf_info (get_system_info raw).
Proof.
  intros W. constructor.
  - apply add_uuid_keys_nodup. apply W.
  - intros k d H. apply get_system_info_get in H; auto. destruct H as (n&e&Hin&->&C). simpl.
    split; [eapply wr_plain; eauto|]. split.
    + apply get_system_info_get; auto. exists n, e. auto.
    + auto.
  - intros k d u H Hu. apply get_system_info_get in H; auto. destruct H as (n&e&Hin&->&C). simpl in Hu.
    apply get_system_info_get; auto. exists n, e. eauto 10.
Qed.
