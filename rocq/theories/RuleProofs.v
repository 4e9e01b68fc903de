From Coq Require Import String Ascii List Bool Arith Lia.
From Verif Require Import Base SysInfo Token Rule SpecPolicy SpecRule TokenProofs SysInfoProofs.
Import ListNotations.
Open Scope string_scope.
Open Scope list_scope.

(** ** words *)
Definition nospace (w : string) : bool := sforall (fun c => negb (is_space c)) w.

Lemma split_ws_blank b s : sforall is_space b = true -> split_ws_aux (b +++ s) "" = split_ws_aux s "".
Proof.
  induction b as [|c b IH]; simpl; auto. intros H. apply andb_true_iff in H as [-> H]. auto.
Qed.
Lemma split_ws_word w s cur : nospace w = true ->
  split_ws_aux (w +++ s) cur = split_ws_aux s (cur +++ w).
Proof.
  revert cur. induction w as [|c w IH]; simpl; intros cur H.
  - rewrite app_nil_s. auto.
  - apply andb_true_iff in H as [Hc H]. apply negb_true_iff in Hc. rewrite Hc.
    rewrite IH by auto. rewrite app_assoc_s. reflexivity.
Qed.
Lemma fields_split s ws : fields s ws -> split_ws s = ws.
Proof.
  unfold split_ws. induction 1 as [b Hb|b w s ws Hb Hw Hn Hs Hf IH].
  - rewrite <- (app_nil_s b). rewrite split_ws_blank by auto. reflexivity.
  - rewrite split_ws_blank by auto. rewrite split_ws_word by auto. simpl.
    destruct Hs as [->|(c & s' & -> & Hc)].
    + simpl in *. subst. destruct w; [congruence|reflexivity].
    + simpl in IH |- *. rewrite Hc in *. destruct w; [congruence|]. simpl in IH. congruence.
Qed.
Lemma split_fields_aux s : forall cur, nospace cur = true ->
  (cur = "" -> fields s (split_ws_aux s "")) /\
  (cur <> "" -> exists rest ws, split_ws_aux s cur = (cur +++ rest) :: ws /\ nospace rest = true /\
     exists s', s = rest +++ s' /\ (s' = "" \/ exists c t, s' = String c t /\ is_space c = true) /\ fields s' ws).
Proof.
  induction s as [|c s IH]; intros cur Hc; simpl.
  - split; [intros _; constructor; auto|]. intros Hn. destruct cur; [congruence|].
    exists "", []. rewrite app_nil_s. split; auto. split; auto. exists "". simpl. split; auto. split; auto.
    constructor; auto.
  - destruct (is_space c) eqn:Ec.
    + destruct (IH "" eq_refl) as [IH1 _]. specialize (IH1 eq_refl). split.
      * intros _. clear - IH1 Ec. inv IH1.
        -- constructor. simpl. rewrite Ec. auto.
        -- change (String c (b +++ w +++ s0)) with ((String c b) +++ w +++ s0). apply fl_cons; auto.
           simpl. rewrite Ec. auto.
      * intros Hn. destruct cur as [|c0 cur]; [congruence|].
        exists "", (split_ws_aux s ""). rewrite app_nil_s. split; auto. split; auto.
        exists (String c s). simpl. split; auto. split; [right; eauto|].
        inv IH1.
        -- constructor. simpl. rewrite Ec. auto.
        -- match goal with H : fields ?s1 ?w1 |- _ =>
             change (String c (b +++ w +++ s1)) with ((String c b) +++ w +++ s1) end. apply fl_cons; auto.
           simpl. rewrite Ec. auto.
    + destruct (IH (cur +++ str1 c)) as [_ IH2].
      { unfold nospace. rewrite sforall_app. fold (nospace cur). rewrite Hc. simpl. rewrite Ec. auto. }
      destruct IH2 as (rest & ws & He & Hr & s' & -> & Hs' & Hf). { destruct cur; discriminate. }
      split.
      * intros ->. simpl in *. rewrite He. change (String c rest) with (str1 c +++ rest).
        change (String c (rest +++ s')) with ("" +++ (String c rest) +++ s'). apply fl_cons; auto.
        -- discriminate.
        -- simpl. rewrite Ec. auto.
      * intros Hn. exists (String c rest), ws. split.
        -- rewrite He. rewrite app_assoc_s. reflexivity.
        -- split; [unfold nospace; simpl; rewrite Ec; exact Hr|]. exists s'. auto.
Qed.
Theorem split_ws_fields s ws : split_ws s = ws <-> fields s ws.
Proof.
  split; [|apply fields_split]. intros <-. apply (split_fields_aux s "" eq_refl); auto.
Qed.
Lemma fields_words s ws : fields s ws -> Forall (fun w => w <> "" /\ nospace w = true) ws.
Proof. induction 1; constructor; auto. Qed.

(** ** characters *)
Lemma rpcname_char_spec c : rpcname_char c = true <-> service_char c.
Proof.
  unfold rpcname_char, service_char, is_upper, is_lower, is_digit, is_char, in_range.
  rewrite !orb_true_iff, !andb_true_iff, !Nat.leb_le, !Ascii.eqb_eq. simpl. intuition congruence.
Qed.
Lemma sforall_has p s : sforall p s = true <-> forall c, has_char c s = true -> p c = true.
Proof.
  induction s as [|d s IH]; simpl.
  - split; auto. discriminate.
  - rewrite andb_true_iff, IH. split.
    + intros [Hd H] c Hc. apply orb_true_iff in Hc as [Hc|Hc]; auto. apply Ascii.eqb_eq in Hc. subst. auto.
    + intros H. split; [apply H; rewrite Ascii.eqb_refl; auto|]. intros c Hc. apply H. rewrite Hc. apply orb_true_r.
Qed.
Lemma valid_chars_spec s : valid_chars s = true <-> service_chars s.
Proof. unfold valid_chars, service_chars. rewrite sforall_has. split; intros H c Hc; apply rpcname_char_spec; auto. Qed.
Lemma valid_chars_np_spec s : valid_chars_no_plus s = true <-> service_chars s /\ has_char "+" s = false.
Proof.
  unfold valid_chars_no_plus, service_chars. rewrite sforall_has. split.
  - intros H. split.
    + intros c Hc. apply rpcname_char_spec. apply H in Hc. apply andb_true_iff in Hc. tauto.
    + destruct (has_char "+" s) eqn:E; auto. apply H in E. apply andb_true_iff in E as [_ E]. discriminate.
  - intros [H Hp] c Hc. apply andb_true_iff. split; [apply rpcname_char_spec; auto|].
    apply negb_true_iff. unfold is_char. destruct (Ascii.eqb_spec "+" c); auto. subst. congruence.
Qed.

Lemma validate_spec sv ar osv oar :
  validate_service_and_argument (Some sv) (Some ar) = Ok (osv, oar) <->
  service_field sv osv /\ argument_field osv ar oar.
Proof.
  unfold validate_service_and_argument, star_to_none.
  destruct (String.eqb_spec sv "*") as [->|Hsv].
  - cbn [bind]. destruct (String.eqb_spec ar "*") as [->|Har].
    + cbn [bind]. split; [intros H; inv H; split; constructor|].
      intros [H1 H2]. inv H1; inv H2; congruence.
    + split; [destruct (negb (valid_chars ar)), (negb (starts "+" ar)); discriminate|].
      intros [H1 H2]. inv H1; [|congruence]. inv H2; congruence.
  - destruct (valid_chars_no_plus sv) eqn:Ev.
    + apply valid_chars_np_spec in Ev as [Ev1 Ev2]. cbn [bind].
      destruct (String.eqb_spec ar "*") as [->|Har].
      * cbn [bind]. split; [intros H; inv H; split; constructor; auto|].
        intros [H1 H2]. inv H1; [congruence|]. inv H2. reflexivity.
      * destruct (valid_chars ar) eqn:Ec; [destruct (starts "+" ar) eqn:Ep|]; cbn [negb bind].
        -- apply valid_chars_spec in Ec. apply starts_split in Ep as [a ->].
           split; [intros H; inv H; split; constructor; auto|].
           intros [H1 H2]. inv H1; [congruence|]. inv H2. reflexivity.
        -- split; [discriminate|]. intros [H1 H2]. inv H2; [congruence|]. discriminate.
        -- split; [discriminate|]. intros [H1 H2]. inv H2; [congruence|].
           match goal with H : service_chars _ |- _ => apply valid_chars_spec in H end. congruence.
    + split; [discriminate|]. intros [H1 H2]. inv H1; [congruence|].
      assert (valid_chars_no_plus sv = true) by (apply valid_chars_np_spec; auto). congruence.
Qed.
Lemma validate_err sv ar e : validate_service_and_argument sv ar = Err e -> e = ESyntax.
Proof.
  unfold validate_service_and_argument. destruct (star_to_none sv) as [s|]; [destruct (valid_chars_no_plus s)|];
  cbn [bind]; destruct (star_to_none ar) as [a|]; cbn [bind]; try congruence;
  destruct (negb (valid_chars a)), (negb (starts "+" a)); cbn [bind]; congruence.
Qed.

Lemma find_exact_no_tmpl c s v : find_exact c s exacts <> Some (TDispTmpl v).
Proof.
  unfold exacts. cbn [find_exact instantiate].
  repeat match goal with |- context [if ?b then _ else _] => destruct b end; discriminate.
Qed.
Lemma parse_tok_disptmpl c s v : parse_tok c s = Ok (TDispTmpl v) -> starts "@" v = false.
Proof.
  unfold parse_tok. destruct (String.eqb s ""); [discriminate|].
  destruct (negb _); [discriminate|]. destruct (find_exact c s exacts) eqn:E.
  - intros H. inv H. exfalso. eapply find_exact_no_tmpl; eauto.
  - intros H. apply find_prefix_sound in H as (_ & p & k & v' & Hin & Hk & Heq & Hv & Hat & Ht); auto.
    simpl in Hin. destruct Hin as [He|[He|[He|[He|[]]]]]; inv He; simpl in Ht; inv Ht; auto.
Qed.

Lemma parse_token_field c s t : parse_tok c s = Ok t <-> token_field c s t.
Proof.
  split.
  - intros H. pose proof (parse_tok_sound _ _ _ H) as [Hs Ha]. unfold token_field.
    split; auto. split; auto. split; [|split].
    + intros Hat Hst. unfold parse_tok in H. destruct (String.eqb s ""); [discriminate|].
      rewrite Hat in H. apply String.eqb_neq in Hst. rewrite Hst in H. simpl in H. congruence.
    + intros n ->. apply parse_tok_name in H. tauto.
    + intros v ->. eapply parse_tok_disptmpl; eauto.
  - intros (Ha & Hs & Hn & Hn2 & Hd). destruct (parse_tok_complete _ _ Ha) as [t' Ht'].
    rewrite Ht'. f_equal. pose proof (parse_tok_sound _ _ _ Ht') as [Hs' _].
    assert (Hu : forall a b, tok_str a = tok_str b -> (forall n, a <> TName n) -> (forall n, b <> TName n) ->
       (forall v, a = TDispTmpl v -> starts "@" v = false) -> (forall v, b = TDispTmpl v -> starts "@" v = false) -> a = b).
    { intros a b He Ha1 Hb1 Ha2 Hb2.
      destruct a, b; simpl in He; try reflexivity; try discriminate; try (exfalso; eapply Ha1; reflexivity);
        try (exfalso; eapply Hb1; reflexivity); try (inv He; reflexivity).
      - exfalso. inv He. specialize (Ha2 _ eq_refl). discriminate.
      - exfalso. inv He. specialize (Hb2 _ eq_refl). discriminate. }
    destruct (starts "@" s) eqn:Eat; [|destruct (String.eqb_spec s "*")].
    + apply Hu; auto; try congruence.
      * intros n ->. apply parse_tok_name in Ht'. intuition congruence.
      * intros n ->. destruct (Hn2 n eq_refl). discriminate.
      * intros v ->. eapply parse_tok_disptmpl; eauto.
    + subst s. rewrite e in *. destruct t; simpl in e; try discriminate.
      * destruct (Hn2 _ eq_refl) as [_ Hx]. congruence.
      * destruct c; cbn in Ht'; congruence.
    + rewrite (Hn eq_refl n). unfold parse_tok in Ht'. destruct (String.eqb s ""); [discriminate|].
      rewrite Eat in Ht'. apply String.eqb_neq in n. rewrite n in Ht'. simpl in Ht'. congruence.
Qed.

(** ** parameters *)
Definition noeq (k : string) : Prop := has_char "=" k = false.

Lemma split_eq k v : noeq k -> split1 "=" (k +++ "=" +++ v) = Some (k, v).
Proof. intros H. apply split1_spec. auto. Qed.
Lemma kv_inj k v k' v' : noeq k -> noeq k' -> k +++ "=" +++ v = k' +++ "=" +++ v' -> k = k' /\ v = v'.
Proof. intros H H' E. apply split_eq with (v := v) in H. rewrite E, split_eq in H by auto. inv H. auto. Qed.

Lemma collect_params_sound ps : forall kw0 kw, collect_params ps kw0 = Ok kw -> NoDup (map fst kw0) ->
  NoDup (map fst kw) /\
  (forall p, In p ps -> exists k v, p = k +++ "=" +++ v /\ noeq k /\ dget kw0 k = None) /\
  (forall l1 l2 l3 k v v', noeq k -> ps <> l1 ++ (k +++ "=" +++ v) :: l2 ++ (k +++ "=" +++ v') :: l3) /\
  (forall k v, dget kw k = Some v <-> dget kw0 k = Some v \/ (noeq k /\ In (k +++ "=" +++ v) ps)).
Proof.
  induction ps as [|p ps IH]; simpl; intros kw0 kw H Hnd.
  - inv H. repeat split; auto; try tauto. intros l1 l2 l3 k v v' _ E. destruct l1; discriminate.
  - destruct (split1 "=" p) as [[k v]|] eqn:E; [|discriminate].
    apply split1_spec in E as [-> Hk]. change (String "=" v) with ("=" +++ v) in *.
    destruct (dmem kw0 k) eqn:Em; [discriminate|].
    assert (Hk0 : dget kw0 k = None) by (unfold dmem in Em; destruct (dget kw0 k); congruence).
    apply IH in H as (Hnd' & Hsh & Hon & Hg); [|apply dset_keys; auto].
    split; auto. split; [|split].
    + intros p [<-|Hp]; [exists k, v; auto|].
      destruct (Hsh _ Hp) as (k' & v' & -> & Hk' & Hn). exists k', v'. split; auto. split; auto.
      destruct (string_dec k' k) as [->|Hne]; auto. rewrite dget_dset_other in Hn; auto.
    + intros l1 l2 l3 k' v1 v2 Hk' He. destruct l1 as [|x l1].
      * cbn [app] in He. injection He as He1 He2. apply kv_inj in He1 as [-> ->]; auto.
        destruct (Hsh (k' +++ "=" +++ v2)) as (k2 & v3 & He & Hk2 & Hn).
        { rewrite He2. rewrite in_app_iff. right. left. auto. }
        apply kv_inj in He as [<- _]; auto. rewrite dget_dset_same in Hn. discriminate.
      * cbn [app] in He. injection He as _ He2. exact (Hon _ _ _ _ _ _ Hk' He2).
    + intros k' v'. rewrite Hg. destruct (string_dec k' k) as [->|Hne].
      * rewrite dget_dset_same, Hk0. split.
        -- intros [H|[H1 H2]]; [inv H; auto|]. right. auto.
        -- intros [H|[H1 [H2|H2]]]; [discriminate| |auto].
           left. apply kv_inj in H2 as [_ ->]; auto.
      * rewrite dget_dset_other by auto. split.
        -- intros [H|[H1 H2]]; auto.
        -- intros [H|[H1 [H2|H2]]]; auto. apply kv_inj in H2 as [<- _]; auto. congruence.
Qed.

Lemma collect_params_complete ps : forall kw0,
  (forall p, In p ps -> exists k v, p = k +++ "=" +++ v /\ noeq k /\ dget kw0 k = None) ->
  (forall l1 l2 l3 k v v', noeq k -> ps <> l1 ++ (k +++ "=" +++ v) :: l2 ++ (k +++ "=" +++ v') :: l3) ->
  exists kw, collect_params ps kw0 = Ok kw.
Proof.
  induction ps as [|p ps IH]; cbn [collect_params]; intros kw0 Hsh Hon; eauto.
  destruct (Hsh p (or_introl eq_refl)) as (k & v & -> & Hk & Hk0). rewrite split_eq by auto.
  unfold dmem. rewrite Hk0. apply IH.
  - intros p Hp. destruct (Hsh p (or_intror Hp)) as (k' & v' & -> & Hk' & Hn). exists k', v'.
    split; auto. split; auto. destruct (string_dec k' k) as [->|Hne]; [|rewrite dget_dset_other; auto].
    exfalso. apply in_split in Hp as (l1 & l2 & ->). eapply (Hon [] l1 l2 k v v'); auto.
  - intros l1 l2 l3 k' v1 v2 Hk' ->. eapply (Hon (_ :: l1) l2 l3 k' v1 v2); auto. reflexivity.
Qed.
Lemma collect_params_err ps : forall kw0 e, collect_params ps kw0 = Err e -> e = ESyntax.
Proof.
  induction ps as [|p ps IH]; simpl; intros kw0 e H; [discriminate|].
  destruct (split1 "=" p) as [[k v]|]; [|congruence]. destruct (dmem kw0 k); [congruence|eauto].
Qed.

Definition known_ok (known : list string) (kw : list (string * string)) : bool :=
  forallb (fun kv => smem (fst kv) known) kw.

Lemma known_noeq : forall act known k, known_params act = Some known -> In k known -> noeq k.
Proof.
  unfold known_params. intros act known k.
  destruct (String.eqb act "allow"); [|destruct (String.eqb act "deny"); [|destruct (String.eqb act "ask")]];
  intros H; inv H; simpl; intros; repeat (destruct H as [<-|H]; [reflexivity|]); tauto.
Qed.

Lemma params_sound known ps kw : (forall k, In k known -> noeq k) ->
  collect_params ps [] = Ok kw -> known_ok known kw = true ->
  params_ok known ps /\ (forall k v, noeq k -> dget kw k = Some v <-> param ps k v).
Proof.
  intros Hkn H Hok. apply collect_params_sound in H as (Hnd & Hsh & Hon & Hg); [|constructor].
  unfold known_ok in Hok. rewrite forallb_forall in Hok. split.
  - constructor.
    + intros p Hp. destruct (Hsh p Hp) as (k & v & -> & Hk & _). exists k, v. split; auto.
      apply smem_In. apply (Hok (k, v)). apply dget_In. apply Hg. auto.
    + intros l1 l2 l3 k v v' Hin. apply Hon. auto.
  - intros k v Hk. rewrite Hg. unfold param. simpl. split; [intros [H|[_ H]]; [discriminate|auto]|auto].
Qed.
Lemma params_complete known ps : (forall k, In k known -> noeq k) -> params_ok known ps ->
  exists kw, collect_params ps [] = Ok kw /\ known_ok known kw = true.
Proof.
  intros Hkn [Hsh Hon]. destruct (collect_params_complete ps []) as [kw Hkw].
  - intros p Hp. destruct (Hsh p Hp) as (k & v & -> & Hk). exists k, v. auto.
  - intros l1 l2 l3 k v v' Hk He. destruct (Hsh (k +++ "=" +++ v)) as (k2 & v2 & E & Hk2).
    { rewrite He. rewrite in_app_iff. right. left. auto. }
    apply kv_inj in E as [<- _]; auto. eapply Hon; eauto.
  - exists kw. split; auto. apply collect_params_sound in Hkw as (Hnd & Hsh' & _ & Hg); [|constructor].
    unfold known_ok. apply forallb_forall. intros [k v] Hin. apply smem_In. simpl.
    assert (Hd : dget kw k = Some v) by (apply In_dget; auto).
    apply Hg in Hd as [Hd|[Hk Hd]]; [discriminate|].
    destruct (Hsh _ Hd) as (k2 & v2 & E & Hk2). apply kv_inj in E as [<- _]; auto.
Qed.

(** ** actions *)
Lemma bool_param_spec kw ps k dflt b : noeq k -> (forall k v, noeq k -> dget kw k = Some v <-> param ps k v) ->
  bool_param kw k dflt = Ok b <-> yesno ps k dflt b.
Proof.
  intros Hk Hg. unfold bool_param. destruct (dget kw k) as [v|] eqn:E.
  - assert (Hp : param ps k v) by (apply Hg; auto).
    assert (Hu : forall v', param ps k v' -> v' = v) by (intros v' H; apply Hg in H; auto; congruence).
    destruct (String.eqb_spec v "yes") as [->|H1]; [|destruct (String.eqb_spec v "no") as [->|H2]].
    + split; [intros H; inv H; constructor; auto|]. intros H. inv H; auto.
      * exfalso. eapply H0; eauto.
      * apply Hu in H0. discriminate.
    + split; [intros H; inv H; apply yn_no; auto|]. intros H. inv H; auto.
      * exfalso. eapply H0; eauto.
      * apply Hu in H0. discriminate.
    + split; [discriminate|]. intros H. inv H.
      * exfalso. eapply H0; eauto.
      * apply Hu in H0. congruence.
      * apply Hu in H0. congruence.
  - assert (Hn : forall v, ~ param ps k v) by (intros v H; apply Hg in H; auto; congruence).
    split; [intros H; inv H; constructor; auto|]. intros H. inv H; auto; exfalso; eapply Hn; eauto.
Qed.
Lemma opt_param_spec kw ps k o : noeq k -> (forall k v, noeq k -> dget kw k = Some v <-> param ps k v) ->
  dget kw k = o <-> opt_param ps k o.
Proof.
  intros Hk Hg. split.
  - intros <-. destruct (dget kw k) as [v|] eqn:E; [apply op_some; apply Hg; auto|].
    apply op_none. intros v H. apply Hg in H; auto. congruence.
  - intros H. inv H.
    + destruct (dget kw k) as [v|] eqn:E; auto. exfalso. apply (H0 v). apply Hg; auto.
    + apply Hg; auto.
Qed.
Lemma redirect_param_spec kw ps k o : noeq k -> (forall k v, noeq k -> dget kw k = Some v <-> param ps k v) ->
  parse_redirect (dget kw k) = Ok o <-> redirect_param ps k o.
Proof.
  intros Hk Hg. unfold parse_redirect. destruct (dget kw k) as [v|] eqn:E.
  - assert (Hp : param ps k v) by (apply Hg; auto).
    assert (Hu : forall v', param ps k v' -> v' = v) by (intros v' H; apply Hg in H; auto; congruence).
    unfold rmap. split.
    + intros H. apply bind_ok in H as (t & Ht & H). inv H. apply parse_token_field in Ht. eapply rp_some; eauto.
    + intros H. inv H; [exfalso; eapply H0; eauto|]. apply Hu in H0. subst.
      apply parse_token_field in H1. rewrite H1. reflexivity.
  - assert (Hn : forall v, ~ param ps k v) by (intros v H; apply Hg in H; auto; congruence).
    split; [intros H; inv H; constructor; auto|]. intros H. inv H; auto; exfalso; eapply Hn; eauto.
Qed.

Lemma action_spec act ps a known : known_params act = Some known ->
  (do kw <- collect_params ps []; make_action act kw) = Ok a <-> action_fields act ps a.
Proof.
  intros Hkn. pose proof (known_noeq act known) as Hno.
  assert (Hkp : params_ok known ps <-> exists kw, collect_params ps [] = Ok kw /\ known_ok known kw = true /\
     (forall k v, noeq k -> dget kw k = Some v <-> param ps k v)).
  { split.
    - intros H. destruct (params_complete known ps (fun k => Hno k Hkn) H) as (kw & H1 & H2).
      exists kw. split; auto. split; auto. eapply params_sound; eauto.
    - intros (kw & H1 & H2 & _). eapply params_sound; eauto. }
  split.
  - intros H. apply bind_ok in H as (kw & Hkw & H). unfold make_action in H. rewrite Hkn in H.
    apply bind_ok in H as (n & Hn & H). apply bind_ok in H as (au & Hau & H).
    destruct (forallb (fun kv => smem (fst kv) known) kw) eqn:Ef; [|discriminate]. cbn [negb] in H.
    destruct (params_sound known ps kw (fun k => Hno k Hkn) Hkw Ef) as [Hpo Hg].
    apply (bool_param_spec kw ps) in Hn; auto; [|reflexivity].
    apply (bool_param_spec kw ps) in Hau; auto; [|reflexivity].
    unfold known_params in Hkn.
    destruct (String.eqb_spec act "allow") as [->|Ha]; [|destruct (String.eqb_spec act "deny") as [->|Hd];
      [|destruct (String.eqb_spec act "ask") as [->|Hk]; [|discriminate]]]; inv Hkn.
    + simpl in H. apply bind_ok in H as (t & Ht & H). inv H.
      apply (redirect_param_spec kw ps) in Ht; auto; [|reflexivity].
      constructor; auto. apply (opt_param_spec kw ps); auto. reflexivity.
    + simpl in H. inv H. constructor; auto.
    + simpl in H. apply bind_ok in H as (t & Ht & H). apply bind_ok in H as (d & Hd2 & H). inv H.
      apply (redirect_param_spec kw ps) in Ht; auto; [|reflexivity].
      apply (redirect_param_spec kw ps) in Hd2; auto; [|reflexivity].
      constructor; auto. apply (opt_param_spec kw ps); auto. reflexivity.
  - intros H. inv H; inv Hkn.
    + apply Hkp in H0 as (kw & -> & Hok & Hg). cbn [bind]. unfold make_action. cbn [known_params].
      change (known_params "deny") with (Some ["notify"]). cbn iota.
      apply (bool_param_spec kw ps) in H1; auto; [|reflexivity]. change (String.eqb "deny" "deny") with true.
      rewrite H1. cbn [bind].
      assert (bool_param kw "autostart" true = Ok true) as ->.
      { unfold bool_param. destruct (dget kw "autostart") as [v|] eqn:E; auto. exfalso.
        unfold known_ok in Hok. rewrite forallb_forall in Hok. apply dget_In in E. apply Hok in E. discriminate. }
      cbn [bind]. unfold known_ok in Hok. rewrite Hok. reflexivity.
    + apply Hkp in H0 as (kw & -> & Hok & Hg). cbn [bind]. unfold make_action.
      change (known_params "allow") with (Some ["target"; "user"; "notify"; "autostart"]). cbn iota.
      apply (bool_param_spec kw ps) in H3; auto; [|reflexivity].
      apply (bool_param_spec kw ps) in H4; auto; [|reflexivity].
      apply (redirect_param_spec kw ps) in H1; auto; [|reflexivity].
      apply (opt_param_spec kw ps) in H2; auto; [|reflexivity].
      change (String.eqb "allow" "deny") with false. rewrite H3, H4. cbn [bind].
      unfold known_ok in Hok. rewrite Hok. cbn [negb]. rewrite H1, H2. reflexivity.
    + apply Hkp in H0 as (kw & -> & Hok & Hg). cbn [bind]. unfold make_action.
      change (known_params "ask") with (Some ["target"; "default_target"; "user"; "notify"; "autostart"]). cbn iota.
      apply (bool_param_spec kw ps) in H4; auto; [|reflexivity].
      apply (bool_param_spec kw ps) in H5; auto; [|reflexivity].
      apply (redirect_param_spec kw ps) in H1; auto; [|reflexivity].
      apply (redirect_param_spec kw ps) in H2; auto; [|reflexivity].
      apply (opt_param_spec kw ps) in H3; auto; [|reflexivity].
      change (String.eqb "ask" "deny") with false. change (String.eqb "ask" "allow") with false.
      rewrite H4, H5. cbn [bind].
      unfold known_ok in Hok. rewrite Hok. cbn [negb]. rewrite H1. cbn [bind]. rewrite H2. cbn [bind]. rewrite H3. reflexivity.
Qed.

Lemma token_default s t : token_field CTarget s t -> (t = TDefault <-> s = "@default").
Proof.
  intros H. split.
  - intros ->. destruct H as (_ & <- & _). reflexivity.
  - intros ->. apply parse_token_field in H. cbn in H. congruence.
Qed.

Theorem make_rule_spec sv ar src tgt act ps file r :
  make_rule (Some sv) (Some ar) src tgt act ps file = Ok r <->
  rule_fields file (sv :: ar :: src :: tgt :: act :: ps) r.
Proof.
  unfold make_rule. split.
  - intros H. apply bind_ok in H as ([osv oar] & Hv & H). apply validate_spec in Hv as [Hv1 Hv2].
    apply bind_ok in H as (ts & Hts & H). apply bind_ok in H as (tt & Htt & H).
    apply parse_token_field in Hts, Htt.
    destruct (known_params act) as [known|] eqn:Ek; [|discriminate].
    assert (Hx : exists a, (do kw <- collect_params ps []; make_action act kw) = Ok a /\
        match tt, a with TDefault, Allow None _ _ _ => Err ESyntax
        | _, _ => Ok (mkRule osv oar ts tt a file) end = Ok r).
    { apply bind_ok in H as (kw & -> & H). apply bind_ok in H as (a & Ha & H). exists a. simpl in *. auto. }
    destruct Hx as (a & Ha & Hr). apply (action_spec _ _ _ _ Ek) in Ha.
    assert (Hr' : r = mkRule osv oar ts tt a file /\ (tt = TDefault -> forall u n s, a <> Allow None u n s)).
    { destruct tt, a as [|[|]|]; inv Hr; split; auto; discriminate. }
    destruct Hr' as [-> Hd]. constructor; auto.
    intros ->. apply Hd. apply (token_default _ _ Htt). auto.
  - intros H. inversion H as [? ? ? ? ? ? osv oar tsrc ttgt a Hsv Har Hts Htt Hac Hdf]; subst.
    assert (validate_service_and_argument (Some sv) (Some ar) = Ok (osv, oar)) as -> by (apply validate_spec; auto).
    pose proof Htt as Htt'. apply parse_token_field in Hts, Htt'. cbn [bind]. rewrite Hts, Htt'. cbn [bind].
    assert (exists known, known_params act = Some known) as [known Hk].
    { inv Hac; eexists; reflexivity. }
    rewrite Hk. apply (action_spec _ _ _ _ Hk) in Hac. apply bind_ok in Hac as (kw & -> & Ha). cbn [bind].
    rewrite Ha. cbn [bind fst snd].
    destruct ttgt eqn:Et; auto. destruct a as [|[|]|]; auto.
    exfalso. eapply Hdf; eauto. apply (token_default _ _ Htt). auto.
Qed.
Lemma bool_param_err kw k d e : bool_param kw k d = Err e -> e = ESyntax.
Proof. unfold bool_param. destruct (dget kw k); [|discriminate]. destruct (String.eqb _ _); [discriminate|]. destruct (String.eqb _ _); congruence. Qed.
Lemma parse_redirect_err o e : parse_redirect o = Err e -> e = ESyntax.
Proof.
  destruct o; simpl; [|discriminate]. destruct (parse_tok CRedirect s) eqn:E; simpl; [discriminate|].
  intros H. inv H. eapply parse_tok_err; eauto.
Qed.
Ltac err_step H lem :=
  match type of H with bind ?x _ = Err _ => let E := fresh "E" in destruct x eqn:E;
    [cbn [bind] in H | cbn [bind] in H; injection H as <-; eapply lem; eassumption] end.
Theorem make_rule_err sv ar src tgt act ps file e :
  make_rule sv ar src tgt act ps file = Err e -> e = ESyntax.
Proof.
  unfold make_rule. intros H.
  err_step H validate_err. err_step H parse_tok_err. err_step H parse_tok_err.
  destruct (known_params act) eqn:Ek; [|congruence].
  err_step H collect_params_err. unfold make_action in H. rewrite Ek in H. cbn iota in H.
  match type of H with bind (bind ?x _) _ = _ => destruct x eqn:?; cbn [bind] in H;
    [|injection H as <-; eapply bool_param_err; eassumption] end.
  match type of H with bind (bind ?x _) _ = _ => destruct x eqn:?; cbn [bind] in H;
    [|injection H as <-; eapply bool_param_err; eassumption] end.
  destruct (negb _); [cbn [bind] in H; congruence|].
  destruct (String.eqb act "deny");
    [cbn [bind] in H; repeat match type of H with context [match ?x with _ => _ end] => destruct x end; congruence|].
  match type of H with bind (bind ?x _) _ = _ => destruct x eqn:?; cbn [bind] in H;
    [|injection H as <-; eapply parse_redirect_err; eassumption] end.
  destruct (String.eqb act "allow");
    [cbn [bind] in H; repeat match type of H with context [match ?x with _ => _ end] => destruct x end; congruence|].
  match type of H with bind (bind ?x _) _ = _ => destruct x eqn:?; cbn [bind] in H;
    [|injection H as <-; eapply parse_redirect_err; eassumption] end.
  repeat match type of H with context [match ?x with _ => _ end] => destruct x end; congruence.
Qed.

Theorem from_line_spec line file r :
  from_line line file = Ok r <-> exists fs, fields line fs /\ rule_fields file fs r.
Proof.
  unfold from_line. destruct (split_ws line) as [|sv [|ar [|src [|tgt [|act ps]]]]] eqn:E;
    (pose proof E as E'; apply split_ws_fields in E').
  1-5: split; [discriminate|]; intros (fs & Hf & Hr); apply split_ws_fields in Hf; rewrite E in Hf; subst fs; inv Hr.
  rewrite make_rule_spec. split.
  - intros H. eauto.
  - intros (fs & Hf & Hr). apply split_ws_fields in Hf. rewrite E in Hf. subst. auto.
Qed.
Theorem from_line_err line file e : from_line line file = Err e -> e = ESyntax.
Proof.
  unfold from_line. destruct (split_ws line) as [|sv [|ar [|src [|tgt [|act ps]]]]]; try congruence.
  apply make_rule_err.
Qed.
