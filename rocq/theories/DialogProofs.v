(** Proofs about the dialog of the policy agent *)
From Coq Require Import String Ascii List Bool Arith ZArith Lia.
From Verif Require Import Base SysInfo Sanitize Dialog SpecDialog.
Import ListNotations.
Open Scope string_scope.
Open Scope list_scope.
Open Scope Z_scope.

(** ** Entries *)
Lemma clean_no_space s r : sanitize_domain_name s true = Ok r -> has_char " " s = false.
Proof.
  unfold sanitize_domain_name, py_sanitize_name. cbn [andb].
  destruct (String.eqb_spec s (smap (py_sanitize_char "") s)) as [E|E]; [|discriminate]. intros _.
  revert E. induction s as [|c s IH]; [reflexivity|]. cbn [smap has_char]. intros E.
  assert (E1 : c = py_sanitize_char "" c /\ s = smap (py_sanitize_char "") s) by (split; congruence).
  destruct E1 as [E1 E2]. rewrite (IH E2), orb_false_r. destruct (Ascii.eqb_spec " " c) as [<-|N]; [|reflexivity].
  vm_compute in E1. discriminate.
Qed.
Lemma app_inj_r a b c : a +++ c = b +++ c -> a = b.
Proof.
  revert b. induction a as [|x a IH]; intros b E.
  - destruct b as [|y b]; [reflexivity|]. exfalso. cbn [String.append] in E. apply (f_equal String.length) in E. cbn in E. rewrite length_app_s in E. lia.
  - destruct b as [|y b].
    + exfalso. cbn [String.append] in E. apply (f_equal String.length) in E. cbn in E. rewrite length_app_s in E. lia.
    + cbn [String.append] in E. assert (x = y /\ a +++ c = b +++ c) as [-> E2] by (split; congruence). now rewrite (IH b E2).
Qed.
Lemma app_inj_l a b c : a +++ b = a +++ c -> b = c.
Proof. induction a as [|x a IH]; [auto|]. cbn [String.append]. intros E. apply IH. congruence. Qed.
Definition ok_name (n : string) : Prop := exists r, sanitize_domain_name (vm_name n) true = Ok r.
Lemma display_inj a b : ok_name a -> ok_name b -> display_name a = display_name b -> a = b.
Proof.
  intros (ra & Ha) (rb & Hb). apply clean_no_space in Ha, Hb. unfold display_name, vm_name in *.
  destruct (starts "@dispvm:" a) eqn:Ea; destruct (starts "@dispvm:" b) eqn:Eb.
  - apply starts_spec in Ea as [x ->]. apply starts_spec in Eb as [y ->].
    change (sdrop 8 ("@dispvm:" +++ x)) with x. change (sdrop 8 ("@dispvm:" +++ y)) with y. intros E.
    apply app_inj_l in E. apply app_inj_r in E. now subst.
  - intros <-. exfalso. rewrite has_char_app in Hb. cbn in Hb. discriminate.
  - intros ->. exfalso. rewrite has_char_app in Ha. cbn in Ha. discriminate.
  - auto.
Qed.
Definition good_entries (e : list (string * string)) : Prop :=
  forall x n, dget e x = Some n -> x = display_name n /\ ok_name n.
Lemma create_entries_spec names : forall acc e, create_entries names acc = Some e -> good_entries acc ->
  good_entries e /\ (forall n, In n names -> ok_name n) /\
  (forall x n, dget e x = Some n <-> dget acc x = Some n \/ (In n names /\ x = display_name n)).
Proof.
  induction names as [|n names IH]; intros acc e H G; cbn [create_entries] in H.
  - assert (acc = e) by congruence. subst e. split; [auto|]. split; [intros n []|]. intros x n. cbn [In]. tauto.
  - destruct (sanitize_domain_name (vm_name n) true) as [r|] eqn:Es; [|discriminate].
    assert (On : ok_name n) by (exists r; exact Es).
    assert (Ds : forall x m, dget (dset acc (display_name n) n) x = Some m <-> dget acc x = Some m \/ m = n /\ x = display_name n).
    { intros x m. destruct (String.eqb_spec x (display_name n)) as [->|N].
      - rewrite dget_dset_same. split.
        + intros E. right. split; [congruence|reflexivity].
        + intros [E|[-> _]]; [|reflexivity]. apply G in E as [E1 E2]. apply display_inj in E1; auto. congruence.
      - rewrite dget_dset_other by auto. intuition congruence. }
    apply IH in H as (G' & On' & S').
    + split; [auto|]. split.
      * intros m [<-|Hm]; auto.
      * intros x m. rewrite S', Ds. cbn [In]. intuition (subst; auto).
    + intros x m E. apply Ds in E as [E|[-> ->]]; [now apply G|]. auto.
Qed.
Lemma entries_spec p e w : open_window p = Some (e, w) ->
  (forall n, In n (p_icons p) -> ok_name n) /\ forall x n, dget e x = Some n <-> In n (p_icons p) /\ x = display_name n.
Proof.
  unfold open_window. destruct (sanitize_domain_name (p_source p) true); [|discriminate].
  destruct (sanitize_service_name (p_service p) true); [|discriminate].
  destruct (create_entries (p_icons p) []) as [e'|] eqn:E; [|discriminate].
  destruct (dget e' (p_source p)); [|discriminate]. intros H. assert (e' = e) by congruence. subst e'.
  apply create_entries_spec in E as (_ & On & S); [|intros x n H'; discriminate]. split; [exact On|].
  intros x n. rewrite S. cbn [dget]. intuition discriminate.
Qed.

(** ** What is selected *)
Definition selected (e : list (string * string)) (wl : list string) (active : option string) (typed : string) : option string :=
  match get_valid_qube_name e wl active typed with Some x => dget e x | None => None end.
Lemma valid_entry_spec e wl x : valid_entry e wl x = true <-> exists n, dget e x = Some n /\ In n wl.
Proof.
  unfold valid_entry. destruct (dget e x) as [n|].
  - rewrite smem_In. split; [eauto|]. intros (m & E & H). congruence.
  - split; [discriminate|]. intros (m & E & _). discriminate.
Qed.
Lemma selected_sound e wl a ty n : selected e wl a ty = Some n -> In n wl /\ exists x, dget e x = Some n /\ (a = Some x \/ x = ty).
Proof.
  unfold selected, get_valid_qube_name.
  assert (T : forall r, (if valid_entry e wl ty then Some ty else None) = r -> match r with Some x => dget e x | None => None end = Some n ->
    In n wl /\ exists x, dget e x = Some n /\ (a = Some x \/ x = ty)).
  { intros r <-. destruct (valid_entry e wl ty) eqn:V; [|discriminate]. apply valid_entry_spec in V as (m & E & I). intros H.
    assert (m = n) by congruence. subst m. split; [auto|]. exists ty. auto. }
  destruct a as [x|]; [|apply (T _ eq_refl)].
  destruct (String.eqb_spec x "") as [->|N]; [apply (T _ eq_refl)|].
  destruct (valid_entry e wl x) eqn:V; [|apply (T _ eq_refl)].
  destruct (String.eqb_spec x "") as [->|_]; [congruence|].
  apply valid_entry_spec in V as (m & E & I). intros H. assert (m = n) by congruence. subst m. split; [auto|]. exists x. auto.
Qed.

(** ** Over time *)
Definition isSome {A} (o : option A) : bool := match o with Some _ => true | None => false end.
Record inv (p : params) (e : list (string * string)) (h : list (Z * event)) (t : Z) (w : window) : Prop := {
  i_ok : w_ok_sensitive w = w_completed w && w_wanted w;
  i_wanted : w_wanted w = isSome (w_target w);
  i_target : w_target w = selected e (p_targets p) (w_active w) (w_typed w);
  i_ids : forall id due, In (id, due) (w_timers w) -> id <= w_timer_id w;
  i_current : forall due, In (w_timer_id w, due) (w_timers w) -> exists t0, focused_since h t0 /\ due = t0 + 1000;
  i_completed : w_completed w = true -> exists t0, focused_since h t0 /\ t0 + 1000 <= t;
  i_live : forall t0, focused_since h t0 -> w_completed w = true \/ In (w_timer_id w, t0 + 1000) (w_timers w);
  i_confirmed : w_confirmed w = Some true -> exists h1 t1 ev h2 t0, h = h1 ++ (t1, ev) :: h2 /\ accepts ev /\ focused_since h1 t0 /\ t0 + 1000 <= t1
}.
Lemma focused_snoc h t0 t ev : (forall b, ev <> StateEvent true b) -> focused_since (h ++ [(t, ev)]) t0 <-> focused_since h t0.
Proof.
  intros N. split.
  - intros (h1 & h2 & E & H). destruct (exists_last (l := (t0, StateEvent true true) :: h2)) as (l & x & El); [discriminate|].
    rewrite El, app_assoc in E. apply app_inj_tail in E as [E1 E2]. subst x.
    destruct l as [|y l].
    + cbn in El. exfalso. apply (N true). congruence.
    + cbn in El. assert (y = (t0, StateEvent true true) /\ h2 = l ++ [(t, ev)]) as [-> ->] by (split; congruence).
      exists h1, l. split; [auto|]. intros t' b Hi. apply (H t' b). apply in_or_app. auto.
  - intros (h1 & h2 & -> & H). exists h1, (h2 ++ [(t, ev)]). split; [now rewrite <- app_assoc|].
    intros t' b Hi. apply in_app_or in Hi as [Hi|[Hi|[]]]; [apply (H _ _ Hi)|]. apply (N b). congruence.
Qed.
Lemma focused_state h t0 t b : focused_since (h ++ [(t, StateEvent true b)]) t0 <-> b = true /\ t0 = t.
Proof.
  split.
  - intros (h1 & h2 & E & H). destruct (exists_last (l := (t0, StateEvent true true) :: h2)) as (l & x & El); [discriminate|].
    rewrite El, app_assoc in E. apply app_inj_tail in E as [E1 E2]. subst x.
    destruct l as [|y l].
    + cbn in El. split; congruence.
    + cbn in El. assert (h2 = l ++ [(t, StateEvent true b)]) as -> by congruence. exfalso. apply (H t b). apply in_or_app. right. left. reflexivity.
  - intros [-> ->]. exists h, []. split; [reflexivity|]. intros t' b' [].
Qed.
Lemma focused_since_fun h t0 t1 : focused_since h t0 -> focused_since h t1 -> t0 = t1.
Proof.
  induction h as [|[t ev] h IH] using rev_ind.
  - intros (h1 & h2 & E & _). destruct h1; discriminate.
  - destruct ev; try (rewrite !focused_snoc by discriminate; exact IH).
    destruct focus_changed; [|rewrite !focused_snoc by discriminate; exact IH].
    rewrite !focused_state. intuition congruence.
Qed.
Lemma confirmed_mono h (x : Z * event) : (exists h1 t1 ev h2 t0, h = h1 ++ (t1, ev) :: h2 /\ accepts ev /\ focused_since h1 t0 /\ t0 + 1000 <= t1) ->
  exists h1 t1 ev h2 t0, h ++ [x] = h1 ++ (t1, ev) :: h2 /\ accepts ev /\ focused_since h1 t0 /\ t0 + 1000 <= t1.
Proof.
  intros (h1 & t2 & ev & h2 & t0 & -> & H). exists h1, t2, ev, (h2 ++ [x]), t0. split; [|exact H]. now rewrite <- app_assoc.
Qed.
Lemma inv_start p e w t : open_window p = Some (e, w) -> inv p e [] t w.
Proof.
  intros H. assert (F : forall t0, ~ focused_since [] t0) by (intros t0 (h1 & h2 & E & _); destruct h1; discriminate).
  unfold open_window in H. destruct (sanitize_domain_name (p_source p) true); [|discriminate].
  destruct (sanitize_service_name (p_service p) true); [|discriminate].
  destruct (create_entries (p_icons p) []) as [e'|] eqn:E; [|discriminate].
  destruct (dget e' (p_source p)); [|discriminate]. assert (e' = e) by congruence. subst e'.
  assert (W : exists a ty, w = select e (p_targets p) a ty (mkWin None "" 0 false false false None None []) \/
              w = select e (p_targets p) a ty (combo_change e (p_targets p) (mkWin None "" 0 false false false None None []))).
  { assert (K : combo_change e (p_targets p) (mkWin None "" 0 false false false None None []) = w ->
      w = select e (p_targets p) None "" (mkWin None "" 0 false false false None None [])) by (intros <-; reflexivity).
    destruct (String.eqb (p_default p) ""); [exists None, ""; left; apply K; congruence|].
    destruct (String.eqb (p_default p) (p_source p)); [exists None, ""; left; apply K; congruence|].
    destruct (in_list e (p_targets p) (p_default p)) as [d|]; [exists (Some d), d; right; symmetry; congruence|exists None, ""; left; apply K; congruence]. }
  clear H E. destruct W as (ac & ty & [-> | ->]).
  all: unfold select, combo_change, update_ok_button_sensitivity, request_sensitivity;
    cbn [w_active w_typed w_timer_id w_completed w_wanted w_ok_sensitive w_target w_confirmed w_timers orb].
  all: change (match get_valid_qube_name e (p_targets p) ac ty with Some name => dget e name | None => None end) with (selected e (p_targets p) ac ty).
  1: remember (selected e (p_targets p) ac ty) as d eqn:Ed.
  2: change (match get_valid_qube_name e (p_targets p) None "" with Some name => dget e name | None => None end) with (selected e (p_targets p) None "");
     remember (selected e (p_targets p) ac ty) as d eqn:Ed; remember (selected e (p_targets p) None "") as d0 eqn:Ed0.
  all: constructor; cbn [w_active w_typed w_timer_id w_completed w_wanted w_ok_sensitive w_target w_confirmed w_timers]; auto; try discriminate;
       try (intros ? ? []; fail); try (intros t0 H0; exfalso; exact (F _ H0)); try (intros ? []; fail).
  - destruct d; reflexivity.
  - destruct d, d0; reflexivity.
Qed.
Lemma clicked_inv p e h t w t' ev b : inv p e h t w -> t <= t' -> (forall c, ev <> StateEvent true c) -> (b = true -> accepts ev) ->
  inv p e (h ++ [(t', ev)]) t' (if w_completed w then set_confirmed b w else w).
Proof.
  intros I Ht N A. destruct I as [I1 I2 I3 I4 I5 I6 I7 I8].
  assert (F : forall t0, focused_since (h ++ [(t', ev)]) t0 <-> focused_since h t0) by (intros; apply focused_snoc, N).
  destruct (w_completed w) eqn:C; constructor; cbn [set_confirmed w_active w_typed w_timer_id w_completed w_wanted w_ok_sensitive w_target w_confirmed w_timers];
    rewrite ?C; auto.
  - intros due H. destruct (I5 due H) as (t0 & H1 & H2). exists t0. split; [now apply F|auto].
  - intros _. destruct (I6 eq_refl) as (t0 & H1 & H2). exists t0. split; [now apply F|lia].
  - intros Hb. destruct (I6 eq_refl) as (t0 & H1 & H2). exists h, t', ev, [], t0. split; [reflexivity|]. split; [apply A; congruence|]. split; [exact H1|lia].
  - intros due H. destruct (I5 due H) as (t0 & H1 & H2). exists t0. split; [now apply F|auto].
  - discriminate.
  - intros t0 H. apply F in H. auto.
  - intros H. apply confirmed_mono, I8, H.
Qed.
Lemma inv_holds p e h t w : history p e h t w -> inv p e h t w.
Proof.
  induction 1 as [t w H|h t w t' ev H I Ht T]; [now apply inv_start|].
  assert (F : (forall b, ev <> StateEvent true b) -> forall t0, focused_since (h ++ [(t', ev)]) t0 <-> focused_since h t0) by (intros N t0; apply focused_snoc, N).
  assert (Keep : (forall b, ev <> StateEvent true b) -> inv p e (h ++ [(t', ev)]) t' w).
  { intros N. destruct I as [I1 I2 I3 I4 I5 I6 I7 I8]. constructor; auto.
    - intros due Hd. destruct (I5 due Hd) as (t0 & H1 & H2). exists t0. split; [now apply (F N)|auto].
    - intros C. destruct (I6 C) as (t0 & H1 & H2). exists t0. split; [now apply (F N)|lia].
    - intros t0 H0. apply (F N) in H0. auto.
    - intros Hc. apply confirmed_mono, I8, Hc. }
  destruct ev as [changed focused|id|active typed| | | |escape]; cbn [step].
  - destruct changed; [|apply Keep; discriminate]. destruct I as [I1 I2 I3 I4 I5 I6 I7 I8].
    constructor; cbn [window_changed_focus w_active w_typed w_timer_id w_completed w_wanted w_ok_sensitive w_target w_confirmed w_timers]; auto; try discriminate.
    + intros id due Hd. destruct focused; [destruct Hd as [Hd|Hd]|].
      * assert (id = w_timer_id w + 1) by congruence. lia.
      * apply I4 in Hd. lia.
      * apply I4 in Hd. lia.
    + intros due Hd. destruct focused; [destruct Hd as [Hd|Hd]|].
      * exists t'. split; [apply focused_state; auto|]. unfold WAIT_MS in Hd. congruence.
      * apply I4 in Hd. lia.
      * apply I4 in Hd. lia.
    + intros t0 H0. apply focused_state in H0 as [-> ->]. right. left. reflexivity.
    + intros Hc. apply confirmed_mono, I8, Hc.
  - assert (N : forall b, TimerFires id <> StateEvent true b) by discriminate. specialize (F N). specialize (Keep N).
    destruct (T id eq_refl) as (due & Hd & Hdue). destruct I as [I1 I2 I3 I4 I5 I6 I7 I8]. unfold timer_check_run.
    assert (Fi : forall x, In x (filter (fun u => negb (fst u =? id)) (w_timers w)) <-> In x (w_timers w) /\ fst x <> id).
    { intros x. rewrite filter_In, negb_true_iff, Z.eqb_neq. reflexivity. }
    destruct (Z.eqb_spec (w_timer_id w) id) as [E|E].
    + constructor; cbn [w_active w_typed w_timer_id w_completed w_wanted w_ok_sensitive w_target w_confirmed w_timers]; auto.
      * intros id' due' Hi. apply Fi in Hi as [Hi _]. eauto.
      * intros due' Hi. apply Fi in Hi as [_ Hi]. cbn in Hi. congruence.
      * intros _. subst id. destruct (I5 due Hd) as (t0 & H1 & H2). exists t0. split; [now apply F|lia].
      * intros Hc. apply confirmed_mono, I8, Hc.
    + constructor; cbn [w_active w_typed w_timer_id w_completed w_wanted w_ok_sensitive w_target w_confirmed w_timers]; auto.
      * intros id' due' Hi. apply Fi in Hi as [Hi _]. eauto.
      * intros due' Hi. apply Fi in Hi as [Hi _]. destruct (I5 _ Hi) as (t0 & H1 & H2). exists t0. split; [now apply F|auto].
      * intros C. destruct (I6 C) as (t0 & H1 & H2). exists t0. split; [now apply F|lia].
      * intros t0 H0. apply F in H0. destruct (I7 t0 H0) as [C|Hi]; [auto|]. right. apply Fi. cbn [fst]. split; auto.
      * intros Hc. apply confirmed_mono, I8, Hc.
  - assert (N : forall b, Changed active typed <> StateEvent true b) by discriminate. specialize (F N).
    destruct I as [I1 I2 I3 I4 I5 I6 I7 I8]. unfold select, combo_change, update_ok_button_sensitivity, request_sensitivity.
    cbn [w_active w_typed w_timer_id w_completed w_wanted w_ok_sensitive w_target w_confirmed w_timers].
    change (match get_valid_qube_name e (p_targets p) active typed with Some name => dget e name | None => None end) with (selected e (p_targets p) active typed).
    remember (selected e (p_targets p) active typed) as d eqn:Ed.
    constructor; cbn [w_active w_typed w_timer_id w_completed w_wanted w_ok_sensitive w_target w_confirmed w_timers]; auto.
    + destruct d; destruct (w_completed w); cbn; auto.
    + intros due' Hi. destruct (I5 _ Hi) as (t0 & H1 & H2). exists t0. split; [now apply F|auto].
    + intros C. destruct (I6 C) as (t0 & H1 & H2). exists t0. split; [now apply F|lia].
    + intros t0 H0. apply F in H0. auto.
    + intros Hc. apply confirmed_mono, I8, Hc.
  - destruct (get_valid_qube_name _ _ _ _); [|apply Keep; discriminate]. apply clicked_inv with (b := true) (t := t); auto; [discriminate|]. intros _. now right.
  - apply clicked_inv with (b := true) (t := t); auto; [discriminate|]. intros _. now left.
  - apply clicked_inv with (b := false) (t := t); auto; discriminate.
  - destruct escape; [|apply Keep; discriminate]. apply clicked_inv with (b := false) (t := t); auto; discriminate.
Qed.

(** ** Markup *)
Lemma ascii_ind' (P : ascii -> Prop) : (forall b0 b1 b2 b3 b4 b5 b6 b7, P (Ascii b0 b1 b2 b3 b4 b5 b6 b7)) -> forall c, P c.
Proof. intros H [b0 b1 b2 b3 b4 b5 b6 b7]. apply H. Qed.
Lemma display_escape bold s : forall rest, display bold Text (markup_escape_text s +++ rest) =
  option_map (app (map (pair bold) (list_ascii_of_string s))) (display bold Text rest).
Proof.
  induction s as [|c s IH]; intros rest.
  - cbn. destruct (display bold Text rest); reflexivity.
  - cbn [markup_escape_text list_ascii_of_string map]. rewrite app_assoc_s.
    assert (S : forall m, display bold Text (escape_char c +++ m) = option_map (cons (bold, c)) (display bold Text m)).
    { intros m. destruct c as [[] [] [] [] [] [] [] []]; reflexivity. }
    rewrite S, IH. destruct (display bold Text rest); reflexivity.
Qed.
Lemma display_plain bold c : Ascii.eqb c "<" = false -> Ascii.eqb c "&" = false -> forall rest,
  display bold Text (String c rest) = option_map (cons (bold, c)) (display bold Text rest).
Proof. intros H1 H2 rest. cbn [display]. now rewrite H1, H2. Qed.
Lemma display_open rest : display false Text ("<b>" +++ rest) = display true Text rest.
Proof. reflexivity. Qed.
Lemma display_close rest : display true Text ("</b>" +++ rest) = display false Text rest.
Proof. reflexivity. Qed.
Lemma escape_dot s : has_char "." (markup_escape_text s) = has_char "." s.
Proof.
  induction s as [|c s IH]; [reflexivity|]. cbn [markup_escape_text]. rewrite has_char_app, IH. cbn [has_char]. f_equal.
  destruct c as [[] [] [] [] [] [] [] []]; reflexivity.
Qed.
Lemma escape_app a b : markup_escape_text (a +++ b) = markup_escape_text a +++ markup_escape_text b.
Proof. induction a as [|c a IH]; [reflexivity|]. cbn [String.append markup_escape_text]. now rewrite IH, app_assoc_s. Qed.
Lemma escape_empty s : markup_escape_text s = "" -> s = "".
Proof. destruct s as [|c s]; [auto|]. cbn [markup_escape_text]. destruct c as [[] [] [] [] [] [] [] []]; discriminate. Qed.
