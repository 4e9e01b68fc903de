(** C99: the description of the system comes from qubesd *)
From Coq Require Import String Ascii List Bool NArith Arith Lia.
From Verif Require Import Base Json SpecJson JsonProofs Server SpecServer Props_Server SysInfo SysInfoProofs Rule Qubesd SpecQubesd.
From Verif Require Import StateProofs.
From Verif Require SpecExec PolicyExec PolicyDaemon DialogProofs.
Import ListNotations.
Open Scope string_scope.
Open Scope list_scope.

(** ** The answer *)
Lemma split1_iff c s a b : split1 c s = Some (a, b) <-> s = a +++ str1 c +++ b /\ SpecExec.lacks c a.
Proof. exact (split1_spec c s a b). Qed.
Lemma split1_at c a b : has_char c a = false -> split1 c (a +++ str1 c +++ b) = Some (a, b).
Proof. intros H. apply split1_iff. split; [reflexivity|exact H]. Qed.
Theorem C99_answer answer :
  (forall d, call_result answer = Data d <-> answer = "0" +++ str1 NUL +++ d) /\
  (forall kind, call_result answer = MgmtError kind <-> reports_error answer kind).
Proof.
  unfold call_result. split.
  - intros d. destruct (starts ("0" +++ str1 NUL) answer) eqn:E.
    + destruct (proj1 (starts_spec _ _) E) as [r Hr]. subst answer.
      change (sdrop 2 (("0" +++ str1 NUL) +++ r)) with r. split; intros H; [assert (r = d) by congruence; subst; reflexivity|].
      change (("0" +++ str1 NUL) +++ r) with ("0" +++ str1 NUL +++ r) in H. apply DialogProofs.app_inj_l in H. apply DialogProofs.app_inj_l in H. congruence.
    + split.
      * intros H. exfalso. revert H. destruct (starts ("2" +++ str1 NUL) answer); [|discriminate]. destruct (splitn 4 NUL answer) as [|x0 [|x1 [|x2 [|x3 [|x4 [|x5 xl]]]]]]; try discriminate. destruct (is_ascii x1); discriminate.
      * intros ->. exfalso. change ("0" +++ str1 NUL +++ d) with (("0" +++ str1 NUL) +++ d) in E. rewrite starts_app in E. discriminate.
  - intros kind. split.
    + destruct (starts ("0" +++ str1 NUL) answer) eqn:E0; [discriminate|].
      destruct (starts ("2" +++ str1 NUL) answer) eqn:E; [|discriminate].
      destruct (proj1 (starts_spec _ _) E) as [r Hr]. cbn [splitn].
      destruct (split1 NUL answer) as [[a b]|] eqn:S0; [|discriminate].
      destruct (split1 NUL b) as [[a1 b1]|] eqn:S1; [|discriminate].
      destruct (split1 NUL b1) as [[a2 b2]|] eqn:S2; [|discriminate].
      destruct (split1 NUL b2) as [[a3 b3]|] eqn:S3; [|discriminate].
      destruct (is_ascii a1) eqn:A; [|discriminate]. intros H. assert (a1 = kind) by congruence. subst a1.
      assert (S0' : split1 NUL answer = Some ("2", r)).
      { subst answer. apply (split1_at NUL "2" r). reflexivity. }
      assert (b = r) by congruence. subst b.
      apply split1_iff in S1. apply split1_iff in S2. apply split1_iff in S3.
      destruct S1 as [-> L1], S2 as [-> L2], S3 as [-> L3]. exists a2, a3, b3. repeat split; auto.
      apply ascii_name_iff. exact A.
    + intros (tb & fmt & args & -> & L1 & L2 & L3 & A).
      set (z := kind +++ _).
      assert (starts ("0" +++ str1 NUL) ("2" +++ str1 NUL +++ z) = false) as -> by reflexivity.
      assert (starts ("2" +++ str1 NUL) ("2" +++ str1 NUL +++ z) = true) as ->.
      { change ("2" +++ str1 NUL +++ z) with (("2" +++ str1 NUL) +++ z). apply starts_app. }
      cbn [splitn]. rewrite (split1_at NUL "2" z) by reflexivity. unfold z.
      rewrite (split1_at NUL kind) by exact L1. rewrite (split1_at NUL tb) by exact L2. rewrite (split1_at NUL fmt) by exact L3.
      rewrite (proj2 (ascii_name_iff kind) A). reflexivity.
Qed.

(** ** The description *)
Lemma none_omits v key : field v key = None <-> omits v key.
Proof.
  split.
  - intros H x G. apply field_iff in G. congruence.
  - intros H. destruct (field v key) eqn:E; auto. apply field_iff in E. destruct (H _ E).
Qed.
Lemma opt_text_iff v key o : opt_text v key = Some o <-> maybe_text v key o.
Proof.
  unfold opt_text. destruct (field v key) as [x|] eqn:E.
  - split.
    + intros H. destruct x; try discriminate.
      * inversion H; subst o. left. apply field_iff; auto.
      * destruct (of_u u) eqn:U; [|discriminate]. inversion H; subst o. cbn. exists u. split; [apply field_iff; auto|apply of_u_iff; auto].
    + destruct o as [s|]; cbn.
      * intros (u & G & S). apply field_iff in G. assert (x = JStr u) by congruence. subst x. apply of_u_iff in S. rewrite S. reflexivity.
      * intros [G|G]; [apply field_iff in G; assert (x = JNull) by congruence; subst x; reflexivity|]. apply none_omits in G. congruence.
  - destruct o as [s|]; cbn.
    + split; [discriminate|]. intros (u & G & S). apply field_iff in G. congruence.
    + split; [|reflexivity]. intros _. right. apply none_omits. exact E.
Qed.
Lemma uuid_iff v o : decode_uuid v = Some o <-> match o with Some u => gives_text v "uuid" u | None => omits v "uuid" end.
Proof.
  unfold decode_uuid. destruct (field v "uuid") as [x|] eqn:E.
  - split.
    + intros H. destruct x; try discriminate. destruct (of_u u) eqn:U; [|discriminate]. inversion H; subst o. exists u. split; [apply field_iff; auto|apply of_u_iff; auto].
    + destruct o as [s|].
      * intros (u & G & S). apply field_iff in G. assert (x = JStr u) by congruence. subst x. apply of_u_iff in S. rewrite S. reflexivity.
      * intros G. apply none_omits in G. congruence.
  - destruct o as [s|].
    + split; [discriminate|]. intros (u & G & S). apply field_iff in G. congruence.
    + split; [|reflexivity]. intros _. apply none_omits. exact E.
Qed.
Lemma flag_iff x b : decode_flag x = Some b <-> x = Some (flag b).
Proof. destruct x as [[]|], b; cbn; split; intros H; try reflexivity; try discriminate; try congruence. Qed.
Lemma texts_iff l r : all_some (map (fun t => match t with JStr u => of_u u | _ => None end) l) = Some r <->
  Forall2 (fun x t => exists u, x = JStr u /\ says u t) l r.
Proof.
  rewrite all_some_iff. revert r. induction l as [|x l IH]; intros [|t r]; cbn; split; intros H; try discriminate; try (inversion H; fail); auto.
  - constructor.
    + destruct x; try discriminate. exists u. split; auto. apply of_u_iff. congruence.
    + apply IH. congruence.
  - inversion H as [|? ? ? ? (u & -> & S) T]; subst. apply of_u_iff in S. rewrite S. f_equal. apply IH. exact T.
Qed.
Lemma tags_iff v r : decode_tags v = Some r <-> exists l, gives v "tags" (JList l) /\ Forall2 (fun x t => exists u, x = JStr u /\ says u t) l r.
Proof.
  unfold decode_tags. split.
  - destruct (field v "tags") as [[]|] eqn:E; try discriminate. intros H. exists l. split; [apply field_iff; auto|apply texts_iff; auto].
  - intros (l & G & F). apply field_iff in G. rewrite G. apply texts_iff. exact F.
Qed.
Lemma internal_iff v b : decode_flag (match field v "internal" with None => Some JFalse | x => x end) = Some b <->
  gives v "internal" (flag b) \/ (omits v "internal" /\ b = false).
Proof.
  rewrite flag_iff, <- field_iff, <- none_omits. destruct (field v "internal") as [x|]; split; intros H.
  - left. exact H.
  - destruct H as [H|[H _]]; [exact H|discriminate].
  - right. split; auto. destruct b; [discriminate|reflexivity].
  - destruct H as [H|[_ ->]]; [discriminate|reflexivity].
Qed.
Definition unnamed (d : dom) : dom := set_name "" d.
Lemma entry_unnamed v d : entry v d <-> entry v (unnamed d).
Proof. destruct d. unfold unnamed, set_name. cbn. split; intros []; constructor; assumption. Qed.
Lemma entry_iff v d : decode_entry v = Some d <-> entry v d /\ d_name d = "".
Proof.
  unfold decode_entry. split.
  - intros H. destruct v as [| | | | | |l]; try discriminate. remember (JDict l) as v.
    destruct (decode_uuid v) eqn:E0; [|discriminate]. destruct (text_field v "type") eqn:E1; [|discriminate].
    destruct (decode_tags v) eqn:E2; [|discriminate]. destruct (decode_flag (field v "template_for_dispvms")) eqn:E3; [|discriminate].
    destruct (opt_text v "default_dispvm") eqn:E4; [|discriminate]. destruct (text_field v "power_state") eqn:E5; [|discriminate].
    destruct (decode_flag (match field v "internal" with None => Some JFalse | x => x end)) eqn:E6; [|discriminate].
    destruct (opt_text v "guivm") eqn:E7; [|discriminate]. destruct (opt_text v "relayvm") eqn:E8; [|discriminate]. destruct (opt_text v "transport_rpc") eqn:E9; [|discriminate].
    inversion H; subst d. split; [|reflexivity].
    constructor; cbn [d_uuid d_type d_tags d_tmpl d_ddisp d_power d_internal d_guivm d_relay d_transport].
    + exists l; auto.
    + apply uuid_iff; auto.
    + apply text_field_iff; auto.
    + apply tags_iff; auto.
    + apply field_iff. apply flag_iff; auto.
    + apply opt_text_iff; auto.
    + apply text_field_iff; auto.
    + apply internal_iff; auto.
    + apply opt_text_iff; auto.
    + apply opt_text_iff; auto.
    + apply opt_text_iff; auto.
  - intros [[(l & O) E0 E1 E2 E3 E4 E5 E6 E7 E8 E9] N].
    apply uuid_iff in E0. apply text_field_iff in E1. apply tags_iff in E2. apply field_iff in E3. apply flag_iff in E3. apply opt_text_iff in E4.
    apply text_field_iff in E5. apply internal_iff in E6. apply opt_text_iff in E7. apply opt_text_iff in E8. apply opt_text_iff in E9.
    rewrite O in *. rewrite E0, E1, E2, E3, E4, E5, E6, E7, E8, E9. destruct d. cbn in *. subst. reflexivity.
Qed.

Lemma map_some_in {A B} (f : A -> option B) ks r : map f ks = map Some r -> forall y, In y r <-> exists k, In k ks /\ f k = Some y.
Proof.
  revert r. induction ks as [|k ks IH]; intros [|y0 r] H y; cbn in *; try discriminate.
  - split; [tauto|]. intros (k & [] & _).
  - assert (H0 : f k = Some y0) by congruence. assert (H1 : map f ks = map Some r) by congruence. rewrite (IH _ H1 y). split.
    + intros [<-|(k' & I & F)]; [exists k; auto|exists k'; auto].
    + intros (k' & [<-|I] & F); [left; congruence|right; exists k'; auto].
Qed.
Lemma map_some_ex {A B} (f : A -> option B) ks : (forall k, In k ks -> exists y, f k = Some y) -> exists r, map f ks = map Some r.
Proof.
  induction ks as [|k ks IH]; intros H; cbn.
  - exists []. reflexivity.
  - destruct (H k) as [y Y]; [left; auto|]. destruct IH as [r R]; [intros k' I; apply H; right; auto|]. exists (y :: r). cbn. congruence.
Qed.
Lemma decode_domain_iff l k n d : decode_domain l k = Some (n, d) <->
  says k n /\ (exists x, gives (JDict l) n x /\ entry x d) /\ d_name d = "".
Proof.
  unfold decode_domain. split.
  - destruct (of_u k) as [n'|] eqn:U; [|discriminate]. destruct (last_value l k) as [x|] eqn:L; [|discriminate].
    destruct (decode_entry x) as [d'|] eqn:D; [|discriminate]. intros H. assert (n' = n) by congruence. assert (d' = d) by congruence. subst.
    apply of_u_iff in U. apply entry_iff in D. destruct D as [D N]. split; auto. split; auto. exists x. split; auto.
    apply says_to_u in U. subst k. apply field_iff. exact L.
  - intros (S & (x & G & E) & N). apply field_iff in G. cbn [field] in G. pose proof (proj1 (says_to_u _ _) S) as Sk. apply of_u_iff in S. rewrite S.
    subst k. rewrite G. rewrite (proj2 (entry_iff x d)) by auto. reflexivity.
Qed.
Lemma decoded_names l ks raw : map (decode_domain l) ks = map Some raw -> ks = map to_u (map fst raw).
Proof.
  revert raw. induction ks as [|k ks IH]; intros [|[n d] raw] H; cbn in *; try discriminate; auto.
  assert (H0 : decode_domain l k = Some (n, d)) by congruence. apply decode_domain_iff in H0. destruct H0 as [S _]. apply says_to_u in S. f_equal; auto. apply IH. congruence.
Qed.
Lemma decode_sound v raw : decode_info v = Some raw -> describes v raw /\ forall n d, In (n, d) raw -> d_name d = "".
Proof.
  unfold decode_info. destruct (field v "domains") as [[]|] eqn:F; try discriminate. intros H. apply all_some_iff in H.
  apply field_iff in F. destruct (keys_spec l []) as [ND KS]. pose proof (decoded_names _ _ _ H) as DN. pose proof (map_some_in _ _ _ H) as MI. split.
  - constructor.
    + rewrite DN in ND. apply NoDup_back in ND; [exact ND|exact to_u_inj].
    + exists l. split; auto. split.
      * intros k x I. assert (K : In k (keys [] l)) by (apply KS; split; [exists x; exact I|simpl; tauto]).
        rewrite DN in K. apply in_map_iff in K. destruct K as (n & <- & N). apply in_map_iff in N. destruct N as ([n' d] & N1 & N2). cbn in N1. subst n'.
        exists n, d. split; auto. apply to_u_says.
      * intros n d I. apply MI in I. destruct I as (k & _ & D). apply decode_domain_iff in D. tauto.
  - intros n d I. apply MI in I. destruct I as (k & _ & D). apply decode_domain_iff in D. tauto.
Qed.
Lemma decode_complete v doms : describes v doms ->
  exists raw, decode_info v = Some raw /\ forall n d, In (n, d) raw <-> exists d0, In (n, d0) doms /\ d = unnamed d0.
Proof.
  intros [ND (l & G & A & B)]. apply field_iff in G. unfold decode_info. rewrite G. destruct (keys_spec l []) as [NK KS].
  destruct (map_some_ex (decode_domain l) (keys [] l)) as [raw R].
  - intros k K. apply KS in K. destruct K as [[x K] _]. destruct (A _ _ K) as (n & d & I & S). destruct (B _ _ I) as (x' & G' & E).
    exists (n, unnamed d). apply decode_domain_iff. split; auto. split; [|reflexivity]. exists x'. split; auto. apply entry_unnamed in E. exact E.
  - exists raw. split; [apply all_some_iff; exact R|]. intros n d. rewrite (map_some_in _ _ _ R (n, d)). split.
    + intros (k & K & D). apply decode_domain_iff in D. destruct D as (S & (x & GX & E) & N). apply KS in K. destruct K as [[x0 K] _].
      destruct (A _ _ K) as (n' & d' & I & S'). assert (n' = n) by (apply says_to_u in S; apply says_to_u in S'; apply to_u_inj; congruence). subst n'.
      destruct (B _ _ I) as (x' & G' & E'). assert (x' = x) by (apply field_iff in G'; apply field_iff in GX; congruence). subst x'.
      exists d'. split; auto. apply entry_unnamed in E'. assert (E1 := proj2 (entry_iff x d) (conj E N)). assert (E2 := proj2 (entry_iff x (unnamed d')) (conj E' eq_refl)). congruence.
    + intros (d0 & I & ->). destruct (B _ _ I) as (x & GX & E). exists (to_u n). split.
      * apply KS. split; [|simpl; tauto]. destruct GX as (a & k & b & EQ & S & _). apply says_to_u in S. subst k. exists x. inversion EQ; subst. apply in_or_app. right. left. reflexivity.
      * apply decode_domain_iff. split; [apply to_u_says|]. split; [|reflexivity]. exists x. split; auto. apply entry_unnamed in E. exact E.
Qed.

Lemma set_unnamed n d : set_name n (unnamed d) = set_name n d.
Proof. reflexivity. Qed.
Lemma named_iff n d d' : d' = set_name n d <-> named n d d'.
Proof.
  split.
  - intros ->. repeat split.
  - destruct d, d'. unfold named, set_name. cbn. intros H. decompose [and] H. subst. reflexivity.
Qed.
Lemma provides_means raw doms x d' : (forall n d, In (n, d) raw <-> exists d0, In (n, d0) doms /\ d = unnamed d0) ->
  provides raw x d' <-> exists n d, means doms x n d /\ named n d d'.
Proof.
  intros R. split.
  - intros (n & d & I & -> & K). apply R in I. destruct I as (d0 & I & ->). exists n, d0. split; [split; auto|]. apply named_iff. apply set_unnamed.
  - intros (n & d & [I K] & N). apply named_iff in N. exists n, (unnamed d). split; [apply R; eauto|]. split; auto.
Qed.
Lemma sensible_raw raw doms : NoDup (map fst raw) -> (forall n d, In (n, d) raw <-> exists d0, In (n, d0) doms /\ d = unnamed d0) -> sensible doms -> wf_raw raw.
Proof.
  intros ND R [P U]. constructor; auto.
  - intros n d I. apply R in I. destruct I as (d0 & I & _). destruct (P _ _ I) as (A & B & C & D). unfold plain_name. rewrite C, D.
    apply String.eqb_neq in A. apply String.eqb_neq in B. rewrite A, B. reflexivity.
  - intros n1 d1 n2 d2 u I1 I2 U1 U2. apply R in I1. apply R in I2. destruct I1 as (e1 & I1 & ->), I2 as (e2 & I2 & ->). eapply U; eauto.
Qed.

(** the answer with the description of a sensible system gives every domain under its name and
    under its uuid, and nothing else *)
Theorem C99_info text v doms :
  ascii_name text -> json_text text v -> describes v doms -> sensible doms ->
  exists i, get_system_info ("0" +++ str1 NUL +++ text) = Fetched i /\ wf_info i /\
    forall x d', dget i x = Some d' <-> exists n d, means doms x n d /\ named n d d'.
Proof.
  intros A T D S. apply ascii_name_iff in A. apply loads_iff in T. unfold get_system_info.
  rewrite (proj2 (proj1 (C99_answer _) text) eq_refl). rewrite A, T. destruct (decode_complete _ _ D) as (raw & R & IN). rewrite R.
  eexists. split; [reflexivity|]. assert (W : wf_raw raw).
  { apply sensible_raw with (doms := doms); auto. destruct (decode_sound _ _ R) as [[ND _] _]. exact ND. }
  split; [apply get_system_info_wf; exact W|]. intros x d'. rewrite (get_system_info_get raw x d' W). apply provides_means. exact IN.
Qed.
(** nothing is believed that qubesd did not say *)
Lemma from_provided todo : forall acc x d', dget (add_uuid_keys acc todo) x = Some d' ->
  provides todo x d' \/ (dget acc x = Some d' /\ ~ In x (map fst todo)).
Proof.
  induction todo as [|[n d] todo IH]; intros acc x d' H.
  - right. split; auto.
  - rewrite add_uuid_keys_step in H. apply IH in H. destruct H as [(n0 & d0 & I & E & K)|[H NI]].
    + left. exists n0, d0. split; [right; exact I|]. auto.
    + unfold step in H. assert (C : (d' = set_name n d /\ (x = n \/ exists u, d_uuid d = Some u /\ x = "uuid:" +++ u)) \/ (dget acc x = Some d' /\ x <> n)).
      { destruct (d_uuid d) as [u|] eqn:U.
        - destruct (String.eqb_spec x ("uuid:" +++ u)) as [->|N1].
          + rewrite dget_dset_same in H. left. split; [congruence|]. right. exists u; auto.
          + rewrite dget_dset_other in H by congruence. destruct (String.eqb_spec x n) as [->|N2].
            * rewrite dget_dset_same in H. left. split; [congruence|]. left; auto.
            * rewrite dget_dset_other in H by congruence. right; auto.
        - destruct (String.eqb_spec x n) as [->|N2].
          + rewrite dget_dset_same in H. left. split; [congruence|]. left; auto.
          + rewrite dget_dset_other in H by congruence. right; auto. }
      destruct C as [[E K]|[G N]].
      * left. exists n, d. split; [left; reflexivity|]. auto.
      * right. split; auto. simpl. intros [X|X]; congruence || auto.
Qed.
Theorem C99_only answer i : get_system_info answer = Fetched i ->
  exists text v doms, answer = "0" +++ str1 NUL +++ text /\ json_text text v /\ describes v doms /\
    forall x d', dget i x = Some d' -> exists n d, means doms x n d /\ named n d d'.
Proof.
  unfold get_system_info. destruct (call_result answer) as [text|e|] eqn:C; try discriminate.
  destruct (is_ascii text); [|discriminate]. destruct (loads text) as [v|] eqn:L; [|discriminate]. destruct (decode_info v) as [raw|] eqn:R; [|discriminate].
  intros H. assert (i = SysInfo.get_system_info raw) by congruence. subst i. exists text, v, raw.
  split; [apply C99_answer; exact C|]. split; [apply loads_iff; exact L|]. destruct (decode_sound _ _ R) as [D N]. split; [exact D|].
  intros x d' G. apply from_provided in G. destruct G as [(n & d & I & E & K)|[G NI]].
  - exists n, d. split; [split; auto|]. apply named_iff. exact E.
  - exfalso. apply NI. apply dget_In in G. apply in_map_iff. exists (x, d'). auto.
Qed.

(** ** Answers that are cut short *)
Lemma dict_scan s l f r : denotes s (JDict l) -> (String.length s <= f)%nat -> scan_once f (s +++ r) = Some (JDict l, r).
Proof.
  intros D L. inversion D as [| | | | | | | |w W|t l' I]; subst; destruct f as [|f]; try (cbn in L; lia); cbn [append scan_once];
    change (Ascii.eqb "{" """") with false; change (Ascii.eqb "{" "{") with true; cbv iota.
  - rewrite app_assoc_s, (skip_white w _ W). reflexivity.
  - rewrite app_assoc_s. cbn [append String.length] in *. rewrite length_app_s in L. cbn [String.length] in L. rewrite Nat.add_1_r in L.
    pose proof (proj2 (proj2 scan_complete) t l I f r ltac:(lia)) as IH. cbn [append] in IH.
    destruct (members_head t l (String "}" r) I) as (c & s & E & C). rewrite E in *.
    destruct (Ascii.eqb_spec c "}"); [contradiction|]. rewrite IH. reflexivity.
Qed.
Lemma loads_longer t u l v : loads t = Some (JDict l) -> loads (t +++ u) = Some v -> v = JDict l.
Proof.
  intros H. apply loads_iff in H. destruct H as (w1 & s & w2 & -> & W1 & W2 & D). unfold loads.
  rewrite !app_assoc_s. rewrite (skip_white w1 _ W1). destruct (denotes_head s _ D) as (c & s' & Es & C & _).
  rewrite (skip_stop (s +++ w2 +++ u)) by (rewrite Es; exact C).
  rewrite (dict_scan s l _ (w2 +++ u) D) by (rewrite !length_app_s; lia).
  destruct (String.eqb _ _); congruence.
Qed.
Lemma ascii_prefix a b : is_ascii (a +++ b) = true -> is_ascii a = true.
Proof. rewrite ascii_app. intros H. apply andb_true_iff in H. tauto. Qed.
Lemma decode_dict v raw : decode_info v = Some raw -> exists l, v = JDict l.
Proof. unfold decode_info. destruct v; cbn [field]; try discriminate. eauto. Qed.
Lemma call_longer a u : call_result a <> Fails ->
  match call_result a with
  | Data d => call_result (a +++ u) = Data (d +++ u)
  | r => call_result (a +++ u) = r
  end.
Proof.
  intros H. destruct (call_result a) as [d|k|] eqn:C; [| |congruence].
  - apply C99_answer in C. subst a. apply C99_answer. rewrite !app_assoc_s. reflexivity.
  - apply C99_answer in C. destruct C as (tb & fmt & args & -> & R). apply C99_answer. exists tb, fmt, (args +++ u). split; [|exact R]. rewrite !app_assoc_s. reflexivity.
Qed.
(** if the connection breaks before the whole answer came, there is an exception, or the result
    is that of the whole answer *)
Theorem C99_cut a u : get_system_info (a +++ u) <> Exception ->
  get_system_info a = Exception \/ get_system_info a = get_system_info (a +++ u).
Proof.
  intros H. pose proof (call_longer a u) as L. unfold get_system_info in *. destruct (call_result a) as [d|k|] eqn:C; [| |left; reflexivity].
  - specialize (L ltac:(discriminate)). rewrite L in *. destruct (is_ascii (d +++ u)) eqn:A; [|congruence]. rewrite (ascii_prefix _ _ A).
    destruct (loads (d +++ u)) as [v|] eqn:LV; [|congruence]. destruct (decode_info v) as [raw|] eqn:R; [|congruence].
    destruct (loads d) as [v'|] eqn:LD; [|left; reflexivity]. destruct (decode_info v') as [raw'|] eqn:R'; [|left; reflexivity].
    destruct (decode_dict _ _ R') as [l ->]. assert (v = JDict l) by (eapply loads_longer; eauto). subst v. right. congruence.
  - specialize (L ltac:(discriminate)). rewrite L. right. reflexivity.
Qed.

(** ** The decision *)
Theorem C99_unavailable policy answer kind agent source target service je ay reqsrc :
  reports_error answer kind -> handle_request policy answer agent source target service je ay reqsrc = (Ok "result=deny", []).
Proof. intros H. unfold handle_request, get_system_info. apply (C99_answer answer) in H. rewrite H. reflexivity. Qed.
Theorem C99_safe policy answer agent input w evs :
  handle_client_connection policy answer agent input = (Some w, evs) ->
  (w = "result=deny" /\ evs = [] /\ exists kind, reports_error answer kind) \/
  (exists text v doms, answer = "0" +++ str1 NUL +++ text /\ json_text text v /\ describes v doms).
Proof.
  unfold handle_client_connection. destruct (get_system_info answer) as [i|k|] eqn:G; [| |discriminate].
  - intros _. right. destruct (C99_only _ _ G) as (text & v & doms & A & B & C & _). eauto 6.
  - intros H. left. assert (exists kind, reports_error answer kind) as R.
    { exists k. apply C99_answer. unfold get_system_info in G. destruct (call_result answer) as [d|k'|] eqn:C; [|congruence|discriminate].
      destruct (is_ascii d); [|discriminate]. destruct (loads d); [|discriminate]. destruct (decode_info _); discriminate. }
    unfold PolicyDaemon.handle_client_connection in H. destruct (PolicyDaemon.read_args _ _); [|discriminate].
    destruct (negb _); [discriminate|]. cbn [PolicyExec.handle_request PolicyExec.ioret] in H.
    apply pair_eq in H. destruct H as [H1 H2]. split; [|auto]. apply (f_equal (fun o => match o with Some x => x | None => "" end)) in H1. cbv beta iota in H1. rewrite <- H1. reflexivity.
Qed.

(** ** The question *)
Theorem C99_question : call_socket "internal.GetSystemInfo" = "/var/run/qubesd.internal.sock" /\
  call_text "dom0" "internal.GetSystemInfo" None None = Some ("internal.GetSystemInfo+ dom0 name dom0" +++ str1 NUL).
Proof. split; reflexivity. Qed.
(** what is written for a call says which call it is: of which method, with which argument, to
    which domain, and with which data; the internal socket is used for internal methods only *)
Theorem C99_call dest method arg payload text : call_text dest method arg payload = Some text ->
  (exists a p, text = method +++ "+" +++ a +++ " dom0 name " +++ dest +++ str1 NUL +++ p /\
     match arg with Some x => a = x | None => a = "" end /\ match payload with Some x => p = x | None => p = "" end) /\
  (call_socket method = "/var/run/qubesd.internal.sock" <-> exists m, method = "internal." +++ m) /\
  (call_socket method = "/var/run/qubesd.sock" <-> ~ exists m, method = "internal." +++ m).
Proof.
  unfold call_text. destruct (is_ascii _); [|discriminate]. intros H.
  split; [|unfold call_socket; destruct (starts "internal." method) eqn:S].
  - exists (match arg with Some a => a | None => "" end), (match payload with Some p => p | None => "" end).
    split; [|destruct arg, payload; auto].
    apply (f_equal (fun o => match o with Some x => x | None => "" end)) in H. cbv beta iota in H. rewrite <- H. rewrite !app_assoc_s. reflexivity.
  - apply starts_spec in S. split; split; intros X; auto; try (discriminate X); tauto.
  - assert (N : ~ exists m, method = "internal." +++ m) by (intros E; apply starts_spec in E; congruence).
    split; split; intros X; auto; try (discriminate X); tauto.
Qed.
Theorem C99_call_unambiguous dest method arg payload dest' method' arg' payload' text :
  call_text dest method arg payload = Some text -> call_text dest' method' arg' payload' = Some text ->
  has_char "+" method = false -> has_char "+" method' = false ->
  (forall a, arg = Some a -> has_char " " a = false) -> (forall a, arg' = Some a -> has_char " " a = false) ->
  has_char NUL dest = false -> has_char NUL dest' = false ->
  dest = dest' /\ method = method' /\ (arg = arg' \/ (arg = None /\ arg' = Some "") \/ (arg = Some "" /\ arg' = None)) /\
  (payload = payload' \/ (payload = None /\ payload' = Some "") \/ (payload = Some "" /\ payload' = None)).
Proof.
  intros H H' M M' A A' D D'.
  destruct (C99_call _ _ _ _ _ H) as [(a & p & E & Ea & Ep) _]. destruct (C99_call _ _ _ _ _ H') as [(a' & p' & E' & Ea' & Ep') _].
  clear H H'. rewrite E in E'. clear E.
  assert (Sa : has_char " " a = false) by (destruct arg as [x|]; subst; auto).
  assert (Sa' : has_char " " a' = false) by (destruct arg' as [x|]; subst; auto).
  assert (Q := split1_at "+" method (a +++ " dom0 name " +++ dest +++ str1 NUL +++ p) M).
  change (str1 "+") with "+" in Q. rewrite E' in Q. change "+" with (str1 "+") in Q. rewrite split1_at in Q by exact M'.
  assert (method' = method) by congruence. subst method'.
  assert (Q1 : a' +++ str1 " " +++ ("dom0 name " +++ dest' +++ str1 NUL +++ p') = a +++ str1 " " +++ ("dom0 name " +++ dest +++ str1 NUL +++ p)).
  { apply (f_equal (fun o => match o with Some (_, x) => x | None => "" end)) in Q. cbv beta iota in Q. exact Q. }
  clear Q E'. assert (Q2 := split1_at " " a ("dom0 name " +++ dest +++ str1 NUL +++ p) Sa). rewrite <- Q1 in Q2. rewrite split1_at in Q2 by exact Sa'.
  assert (a' = a) by congruence.
  apply (f_equal (fun o => match o with Some (_, x) => sdrop 10 x | None => "" end)) in Q2. cbv beta iota in Q2.
  change (dest' +++ str1 NUL +++ p' = dest +++ str1 NUL +++ p) in Q2.
  assert (Q3 := split1_at NUL dest p D). rewrite <- Q2 in Q3. rewrite split1_at in Q3 by exact D'.
  assert (dest' = dest) by congruence. assert (p' = p) by congruence. clear Q1 Q2 Q3. subst.
  split; [reflexivity|]. split; [reflexivity|]. split.
  - destruct arg as [x|], arg' as [y|]; subst; auto.
  - destruct payload as [x|], payload' as [y|]; subst; auto.
Qed.

(** ** Example *)
Definition ex_text : string :=
  "{""domains"": {""dom0"": {""tags"": [], ""type"": ""AdminVM"", ""template_for_dispvms"": false, ""default_dispvm"": null, ""power_state"": ""Running"", ""guivm"": null}," +++
  " ""w\u006frk"": {""tags"": [""a"", ""b""], ""type"": ""AppVM"", ""template_for_dispvms"": true, ""default_dispvm"": ""work"", ""power_state"": ""Halted"", ""guivm"": ""dom0"", ""uuid"": ""11-22"", ""internal"": true}}} ".
Definition ex_dom0 := mkDom None "AdminVM" [] false None "Running" false None None None "".
Definition ex_work := mkDom (Some "11-22") "AppVM" ["a"; "b"] true (Some "work") "Halted" true (Some "dom0") None None "".
Definition ex_doms := [("dom0", ex_dom0); ("work", ex_work)].
Example ex_describes : exists v, ascii_name ex_text /\ json_text ex_text v /\ describes v ex_doms /\ sensible ex_doms.
Proof.
  destruct (loads ex_text) as [v|] eqn:L; [|vm_compute in L; discriminate L]. exists v.
  split; [apply ascii_name_iff; vm_compute; reflexivity|]. split; [apply loads_iff; exact L|].
  assert (D : match loads ex_text with Some v => decode_info v | None => None end = Some ex_doms) by (vm_compute; reflexivity).
  rewrite L in D. split; [apply (decode_sound v); exact D|]. constructor.
  - intros n d [H|[H|[]]]; assert (H1 := f_equal fst H); cbn in H1; subst n; repeat split; discriminate.
  - intros n1 d1 n2 d2 u [H|[H|[]]] [H'|[H'|[]]]; assert (H1 := f_equal snd H); assert (H2 := f_equal snd H'); assert (H3 := f_equal fst H); assert (H4 := f_equal fst H'); cbn in H1, H2, H3, H4; subst; cbn; congruence.
Qed.
Example ex_both : exists i d, get_system_info ("0" +++ str1 NUL +++ ex_text) = Fetched i /\ dget i "work" = Some d /\ dget i "uuid:11-22" = Some d /\ d_name d = "work" /\ dget i "vault" = None.
Proof. eexists. eexists. split; [vm_compute; reflexivity|]. repeat split. Qed.
Example ex_cut : get_system_info ("0" +++ str1 NUL +++ stake 150 ex_text) = Exception /\ get_system_info "" = Exception.
Proof. split; vm_compute; reflexivity. Qed.
Example ex_error : reports_error ("2" +++ str1 NUL +++ "QubesException" +++ str1 NUL +++ str1 NUL +++ "%s" +++ str1 NUL +++ "x" +++ str1 NUL) "QubesException".
Proof. exists "", "%s", ("x" +++ str1 NUL). split; [reflexivity|]. repeat split. apply ascii_name_iff. vm_compute. reflexivity. Qed.
