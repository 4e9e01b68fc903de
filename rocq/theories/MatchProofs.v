From Coq Require Import String Ascii List Bool Arith Lia.
From Verif Require Import Base SysInfo Token Rule Policy SpecPolicy TokenProofs.
Import ListNotations.
Open Scope string_scope.
Open Scope list_scope.

Lemma is_dom0_spec s : is_dom0 s = true <-> means_dom0 s.
Proof.
  unfold is_dom0, means_dom0, ZERO_UUID. rewrite !orb_true_iff, !String.eqb_eq. tauto.
Qed.
Lemma is_dom0_false s : is_dom0 s = false <-> ~ means_dom0 s.
Proof. rewrite <- is_dom0_spec. destruct (is_dom0 s); split; congruence. Qed.

Lemma plain_not_uuid s : plain_name s = true -> starts "uuid:" s = false.
Proof. unfold plain_name. rewrite !andb_true_iff, !negb_true_iff. tauto. Qed.
Lemma plain_not_at s : plain_name s = true -> starts "@" s = false.
Proof. unfold plain_name. rewrite !andb_true_iff, !negb_true_iff. tauto. Qed.
Lemma plain_not_empty s : plain_name s = true -> s <> "".
Proof. unfold plain_name. rewrite !andb_true_iff, !negb_true_iff, !String.eqb_neq. tauto. Qed.

Lemma key_not_at i k d : wf_info i -> dget i k = Some d -> starts "@" k = false.
Proof.
  intros W H. destruct (wf_keys i W _ _ H) as (Hp & _ & [->|(u & _ & ->)]).
  - apply plain_not_at; auto.
  - reflexivity.
Qed.
Lemma at_no_key i k : wf_info i -> starts "@" k = true -> dget i k = None.
Proof.
  intros W H. destruct (dget i k) eqn:E; auto.
  apply key_not_at in E; auto. congruence.
Qed.
Lemma key_uuid i k d : wf_info i -> dget i k = Some d -> starts "uuid:" k = true ->
  exists u, d_uuid d = Some u /\ k = "uuid:" +++ u.
Proof.
  intros W H Hs. destruct (wf_keys i W _ _ H) as (Hp & _ & [->|?]); auto.
  apply plain_not_uuid in Hp. congruence.
Qed.
Lemma key_name i k d : wf_info i -> dget i k = Some d -> starts "uuid:" k = false -> k = d_name d.
Proof.
  intros W H Hs. destruct (wf_keys i W _ _ H) as (Hp & _ & [->|(u & _ & ->)]); auto.
  discriminate.
Qed.

Lemma uuid_is_spec i k u : uuid_is i k u = true <-> exists d, dget i k = Some d /\ d_uuid d = Some u.
Proof.
  unfold uuid_is. destruct (dget i k) as [d|] eqn:E.
  - destruct (d_uuid d) as [v|] eqn:Eu.
    + rewrite String.eqb_eq. split.
      * intros ->. eauto.
      * intros (d' & H1 & H2). inv H1. congruence.
    + split; [discriminate|]. intros (d' & H1 & H2). inv H1. congruence.
  - split; [discriminate|]. intros (d' & H1 & _). discriminate.
Qed.

Lemma match_strings_spec i a b : wf_info i -> match_strings i a b = true <-> same_qube i a b.
Proof.
  intros W. unfold match_strings, same_qube.
  destruct (starts "uuid:" a) eqn:Ea, (starts "uuid:" b) eqn:Eb.
  - rewrite String.eqb_eq. split; auto. intros [|(d & H1 & H2)]; auto.
    destruct (key_uuid _ _ _ W H1 Ea) as (u & Hu & ->).
    destruct (key_uuid _ _ _ W H2 Eb) as (u' & Hu' & ->). congruence.
  - apply starts_split in Ea as [u ->].
    change (sdrop 5 ("uuid:" +++ u)) with u. rewrite uuid_is_spec. split.
    + intros (d & H1 & H2). right. exists d. split; auto. eapply wf_uuid; eauto.
    + intros [<-|(d & H1 & H2)].
      * rewrite starts_app in Eb. discriminate.
      * exists d. split; auto. destruct (key_uuid _ _ _ W H1 (starts_app _ _)) as (u' & Hu & He).
        apply app_inj_l_s in He. congruence.
  - apply starts_split in Eb as [u ->].
    change (sdrop 5 ("uuid:" +++ u)) with u. rewrite uuid_is_spec. split.
    + intros (d & H1 & H2). right. exists d. split; auto. eapply wf_uuid; eauto.
    + intros [->|(d & H1 & H2)].
      * rewrite starts_app in Ea. discriminate.
      * exists d. split; auto. destruct (key_uuid _ _ _ W H2 (starts_app _ _)) as (u' & Hu & He).
        apply app_inj_l_s in He. congruence.
  - rewrite String.eqb_eq. split; auto. intros [|(d & H1 & H2)]; auto.
    rewrite (key_name _ _ _ W H1 Ea), (key_name _ _ _ W H2 Eb). reflexivity.
Qed.

(** get_dispvm_template under referential integrity *)
Lemma get_dispvm_template_ok i src : wf_refs i ->
  get_dispvm_template i src =
    Ok (match dget i src with
        | Some d => option_map TDispTmpl (d_ddisp d)
        | None => None end).
Proof.
  intros R. unfold get_dispvm_template. destruct (dget i src) as [d|] eqn:E; auto.
  destruct (d_ddisp d) as [t|] eqn:Et; auto.
  destruct (R _ _ _ E Et) as [_ Hp]. simpl option_map.
  assert (Hne : t <> "") by (apply plain_not_empty; auto).
  assert (Ha : starts "@" t = false) by (apply plain_not_at; auto).
  destruct t as [|a t]; [congruence|].
  assert (Ha' : Ascii.eqb "@" a = false) by (simpl in Ha; rewrite andb_true_r in Ha; auto).
  unfold parse_tok. cbn. rewrite Ha'. reflexivity.
Qed.

(** What may stand on the right of a match *)
Definition other_ok (i : info) (t : tok) : Prop :=
  call_target i t \/ exists s, t = TName s /\ starts "@" s = false.

Lemma other_ok_default i t : wf_info i -> other_ok i t -> tok_str t = "@default" -> t = TDefault.
Proof.
  intros W [H|(s & -> & H)] Ht.
  - destruct H; simpl in Ht; try discriminate; auto.
    destruct H as [d Hd]. apply key_not_at in Hd; auto. subst. discriminate.
  - simpl in Ht. subst. discriminate.
Qed.
Lemma other_ok_disp i t : wf_info i -> other_ok i t -> tok_str t = "@dispvm" -> t = TDisp.
Proof.
  intros W [H|(s & -> & H)] Ht.
  - destruct H; simpl in Ht; try discriminate; auto.
    destruct H as [d Hd]. apply key_not_at in Hd; auto. subst. discriminate.
  - simpl in Ht. subst. discriminate.
Qed.

Lemma default_matches i t : wf_info i -> other_ok i t ->
  match_strings i "@default" (tok_str t) = true <-> t = TDefault.
Proof.
  intros W Ho. rewrite match_strings_spec by auto. split.
  - intros [H|(d & H1 & _)].
    + apply (other_ok_default i); auto.
    + apply key_not_at in H1; auto. discriminate.
  - intros ->. left. reflexivity.
Qed.

Lemma same_qube_plain i a b : wf_info i ->
  starts "uuid:" a = false -> starts "uuid:" b = false -> same_qube i a b <-> a = b.
Proof.
  intros W Ha Hb. rewrite <- match_strings_spec by auto. unfold match_strings.
  rewrite Ha, Hb. apply String.eqb_eq.
Qed.

(** Correctness of matching *)
Lemma match_tok_correct i self t src b :
  wf_info i -> wf_refs i -> other_ok i t ->
  ~ (uuid_dispvm self /\ t = TDisp) ->
  match_tok i self t (Some src) = Ok b -> (b = true <-> covers i src self t).
Proof.
  intros W R Ho Hu H. destruct self; simpl in H.
  - (* TName *)
    destruct (is_dom0 s) eqn:Es; inv H.
    + rewrite is_dom0_spec. apply is_dom0_spec in Es. split.
      * intros. apply cov_dom0; auto.
      * intros C. inv C; auto. contradiction.
    + rewrite match_strings_spec by auto. apply is_dom0_false in Es. split.
      * intros. apply cov_name; auto.
      * intros C. inv C; auto. contradiction.
  - inv H. split; auto. constructor.
  - inv H. rewrite is_dom0_spec. split; [constructor; auto|intros C; inv C; auto].
  - inv H. rewrite negb_true_iff, is_dom0_false. split; [constructor; auto|intros C; inv C; auto].
  - inv H. rewrite default_matches by auto. split; [intros ->; constructor|intros C; inv C; auto].
  - destruct (dget i (tok_str t)) as [d|] eqn:E; inv H.
    + rewrite String.eqb_eq. split.
      * intros ->. eapply cov_type; eauto.
      * intros C. inv C. congruence.
    + split; [discriminate|]. intros C. inv C. congruence.
  - destruct (dget i (tok_str t)) as [d|] eqn:E; inv H.
    + rewrite smem_In. split.
      * intros. eapply cov_tag; eauto.
      * intros C. inv C. congruence.
    + split; [discriminate|]. intros C. inv C. congruence.
  - inv H. rewrite String.eqb_eq. split.
    + intros Hd. rewrite (other_ok_disp i t W Ho (eq_sym Hd)). constructor.
    + intros C. inv C. reflexivity.
  - (* TDispTmpl *)
    destruct t; simpl in H; try (inv H; split; [discriminate|intros C; inv C;
      match goal with D : disp_template _ _ _ _ |- _ => inv D end]).
    + (* TDisp *)
      rewrite get_dispvm_template_ok in H by auto. simpl in H.
      destruct (dget i src) as [d|] eqn:E; [|discriminate].
      destruct (d_ddisp d) as [w|] eqn:Ew; [|discriminate]. simpl in H. inv H.
      assert (Hv : starts "uuid:" v = false).
      { destruct (starts "uuid:" v) eqn:Ev; auto. exfalso. apply Hu. split; auto. }
      destruct (R _ _ _ E Ew) as [_ Hp]. apply plain_not_uuid in Hp.
      rewrite match_strings_spec by auto. rewrite same_qube_plain by (auto; reflexivity).
      split.
      * intros He. apply (app_inj_l_s "@dispvm:") in He. subst w.
        eapply cov_disptmpl; [eapply dt_default; eauto|]. left. auto.
      * intros C. inv C. match goal with D : disp_template _ _ _ _ |- _ => inv D end.
        replace w0 with w in * by congruence.
        match goal with S : same_qube _ _ _ |- _ => apply same_qube_plain in S; auto; subst; auto end.
    + inv H. rewrite match_strings_spec by auto. split.
      * intros. eapply cov_disptmpl; eauto. constructor.
      * intros C. inv C. match goal with D : disp_template _ _ _ _ |- _ => inv D end. auto.
  - (* TDispTag *)
    destruct t; simpl in H; try (inv H; split; [discriminate|intros C; inv C;
      match goal with D : disp_template _ _ _ _ |- _ => inv D end]).
    + rewrite get_dispvm_template_ok in H by auto. simpl in H.
      destruct (dget i src) as [d|] eqn:E.
      2:{ simpl in H. inv H. split; [discriminate|]. intros C. inv C.
          match goal with D : disp_template _ _ _ _ |- _ => inv D end. congruence. }
      destruct (d_ddisp d) as [w|] eqn:Ew; simpl in H.
      2:{ inv H. split; [discriminate|]. intros C. inv C.
          match goal with D : disp_template _ _ _ _ |- _ => inv D end. congruence. }
      unfold dgetE in H. destruct (dget i w) as [dw|] eqn:Edw; simpl in H; [|discriminate].
      inv H. rewrite andb_true_iff, smem_In. split.
      * intros [? ?]. eapply cov_disptag; eauto. eapply dt_default; eauto.
      * intros C. inv C. match goal with D : disp_template _ _ _ _ |- _ => inv D end.
        replace w0 with w in * by congruence. replace d0 with dw in * by congruence. auto.
    + unfold dgetE in H. destruct (dget i v0) as [dw|] eqn:Edw; simpl in H; [|discriminate].
      inv H. rewrite andb_true_iff, smem_In. split.
      * intros [? ?]. eapply cov_disptag; eauto. constructor.
      * intros C. inv C. match goal with D : disp_template _ _ _ _ |- _ => inv D end.
        replace d with dw in * by congruence. auto.
Qed.

(** Totality of matching *)
Lemma match_tok_total i self t src :
  wf_refs i -> call_target i t ->
  (t = TDisp -> exists d w, dget i src = Some d /\ d_ddisp d = Some w) ->
  exists b, match_tok i self t (Some src) = Ok b.
Proof.
  intros R Hc Hd.
  assert (Hgt : t = TDisp -> exists w dw, get_dispvm_template i src = Ok (Some (TDispTmpl w)) /\ dget i w = Some dw).
  { intros Ht. destruct (Hd Ht) as (d & w & H1 & H2). destruct (R _ _ _ H1 H2) as [[dw Hw] _].
    exists w, dw. rewrite get_dispvm_template_ok, H1, H2 by auto. auto. }
  destruct self; simpl; eauto.
  - destruct (is_dom0 s); eauto.
  - destruct (dget i (tok_str t)); eauto.
  - destruct (dget i (tok_str t)); eauto.
  - destruct Hc; eauto. destruct Hgt as (w & dw & -> & _); auto. simpl. eauto.
  - destruct Hc as [| | | |v' d0 Hv' Ht']; simpl; eauto.
    + destruct Hgt as (w & dw & -> & Hw); auto. simpl. unfold dgetE. rewrite Hw. simpl. eauto.
    + unfold dgetE. rewrite Hv'. simpl. eauto.
Qed.

(** The source column *)
Lemma match_source_total i self s : exists b, match_tok i self (TName s) None = Ok b.
Proof.
  destruct self; simpl; eauto.
  - destruct (is_dom0 s0); eauto.
  - destruct (dget i s); eauto.
  - destruct (dget i s); eauto.
Qed.
Lemma match_source_same i self s src : match_tok i self (TName s) None = match_tok i self (TName s) src.
Proof. destruct self, src; reflexivity. Qed.

Lemma match_source_correct i self s b :
  wf_info i -> wf_refs i -> starts "@" s = false ->
  match_tok i self (TName s) None = Ok b -> (b = true <-> covers i s self (TName s)).
Proof.
  intros W R Hs H. rewrite (match_source_same _ _ _ (Some s)) in H.
  eapply match_tok_correct; eauto.
  - right. eauto.
  - intros [_ Hx]. discriminate.
Qed.
