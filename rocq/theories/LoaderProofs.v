(** The loader computes what the specification says *)
From Coq Require Import String Ascii List Bool Arith Lia.
From Verif Require Import Base SysInfo Token Rule FileSys Loader SpecPolicy SpecRule SpecLoader.
From Verif Require Import TokenProofs RuleProofs TextProofs.
Import ListNotations.
Open Scope string_scope.
Open Scope nat_scope.
Open Scope list_scope.

Lemma concatM_ok {A} (g : A -> res (list rule)) l rs :
  concatM g l = Ok rs <-> exists rss, Forall2 (fun x r => g x = Ok r) l rss /\ rs = concat rss.
Proof.
  revert rs. induction l as [|x l IH]; intros rs; simpl.
  - split; [intros H; inv H; exists []; auto|]. intros (rss & H & ->). inv H. auto.
  - split.
    + intros H. apply bind_ok in H as (a & Ha & H). apply bind_ok in H as (b & Hb & H). inv H.
      apply IH in Hb as (rss & Hf & ->). exists (a :: rss). auto.
    + intros (rss & Hf & ->). inversion Hf as [|? a ? rss' Ha Hf']; subst. rewrite Ha. simpl.
      assert (concatM g l = Ok (concat rss')) as -> by (apply IH; eauto). auto.
Qed.
Lemma concatM_cons_ok {A} (g : A -> res (list rule)) x l rs :
  concatM g (x :: l) = Ok rs <-> exists a b, g x = Ok a /\ concatM g l = Ok b /\ rs = a ++ b.
Proof.
  simpl. split.
  - intros H. apply bind_ok in H as (a & Ha & H). apply bind_ok in H as (b & Hb & H). inv H. eauto.
  - intros (a & b & -> & -> & ->). auto.
Qed.
Lemma concatM_app {A} (g : A -> res (list rule)) l l' :
  concatM g (l ++ l') = (do a <- concatM g l; do b <- concatM g l'; Ok (a ++ b)).
Proof.
  induction l as [|x l IH]; simpl.
  - destruct (concatM g l'); auto.
  - destruct (g x) as [a|]; simpl; auto. rewrite IH. destruct (concatM g l); simpl; auto.
    destruct (concatM g l'); simpl; auto. rewrite app_assoc. auto.
Qed.
Lemma concatM_ext {A} (g h : A -> res (list rule)) l : (forall x, In x l -> g x = h x) -> concatM g l = concatM h l.
Proof. induction l as [|x l IH]; simpl; auto. intros H. rewrite H by auto. rewrite IH by auto. auto. Qed.
(** success is kept when every step keeps it *)
Lemma concatM_mono {A} (g h : A -> res (list rule)) l rs :
  (forall x r, In x l -> g x = Ok r -> h x = Ok r) -> concatM g l = Ok rs -> concatM h l = Ok rs.
Proof.
  revert rs. induction l as [|x l IH]; intros rs H Hg; auto.
  apply concatM_cons_ok in Hg as (a & b & Ha & Hb & ->). apply concatM_cons_ok.
  exists a, b. repeat split; [apply H; simpl; auto|apply IH; auto; intros; apply H; simpl; auto].
Qed.

(** ** Fuel *)
Lemma service_line_mono openf (rec rec' : option string -> option string -> string -> list string -> res (list rule)) sv ar file x r :
  (forall sv ar file ls rs, rec sv ar file ls = Ok rs -> rec' sv ar file ls = Ok rs) ->
  service_line openf rec sv ar file x = Ok r -> service_line openf rec' sv ar file x = Ok r.
Proof.
  intros Hrec. unfold service_line. destruct (skip_line _); auto. destruct (starts "!" _); auto.
  destruct (split_ws _) as [|d ps]; auto. destruct (String.eqb d "!include"); auto. destruct ps as [|p [|]]; auto.
  intros Hx. apply bind_ok in Hx as (sa & -> & Hx). apply bind_ok in Hx as (fl & -> & Hx). simpl. auto.
Qed.
Lemma load_service_mono fuel : forall fuel' openf sv ar file ls rs, fuel <= fuel' ->
  load_service fuel openf sv ar file ls = Ok rs -> load_service fuel' openf sv ar file ls = Ok rs.
Proof.
  induction fuel as [|fuel IH]; intros fuel' openf sv ar file ls rs Hle H; [discriminate|].
  destruct fuel' as [|fuel']; [lia|]. simpl in *. eapply concatM_mono; [|exact H].
  intros x r _. apply service_line_mono. intros. eapply IH; [|eassumption]. lia.
Qed.
Lemma include_service_mono fuel fuel' openf sv ar p rs : fuel <= fuel' ->
  include_service fuel openf sv ar p = Ok rs -> include_service fuel' openf sv ar p = Ok rs.
Proof.
  unfold include_service. intros Hle Hx. apply bind_ok in Hx as (sa & -> & Hx). apply bind_ok in Hx as (fl & -> & Hx). simpl.
  eapply load_service_mono; eauto.
Qed.
Definition compat_mono (L : loader) : Prop := forall fuel fuel' rs, fuel <= fuel' ->
  ld_compat L fuel = Ok rs -> ld_compat L fuel' = Ok rs.
Lemma file_line_mono L (rec rec' : string -> list string -> res (list rule)) fuel fuel' file x r :
  compat_mono L -> fuel <= fuel' ->
  (forall file ls rs, rec file ls = Ok rs -> rec' file ls = Ok rs) ->
  file_line L rec fuel file x = Ok r -> file_line L rec' fuel' file x = Ok r.
Proof.
  intros HL Hle Hrec. unfold file_line. destruct (skip_line _); auto. destruct (starts "!" _); auto.
  destruct (split_ws _) as [|d ps]; auto. destruct (String.eqb d "!include"); [|destruct (String.eqb d "!include-dir"); [|destruct (String.eqb d "!include-service"); [|destruct (String.eqb d "!compat-4.0"); auto]]].
  - destruct ps as [|p [|]]; auto. intros Hx. apply bind_ok in Hx as (fl & -> & Hx). simpl. auto.
  - destruct ps as [|p [|]]; auto. intros Hx. apply bind_ok in Hx as (fl & -> & Hx). simpl.
    eapply concatM_mono; [|exact Hx]. intros [file' rls] r' _ Hy. apply bind_ok in Hy as (ls' & Hls & Hy).
    simpl in *. rewrite Hls. simpl. auto.
  - destruct ps as [|s [|a [|p [|]]]]; auto. intros Hx. eapply include_service_mono; [|exact Hx]. lia.
  - destruct ps; auto. intros Hx. eapply HL; [|exact Hx]. lia.
Qed.
Lemma load_file_mono L : compat_mono L -> forall fuel fuel' file ls rs, fuel <= fuel' ->
  load_file fuel L file ls = Ok rs -> load_file fuel' L file ls = Ok rs.
Proof.
  intros HL. induction fuel as [|fuel IH]; intros fuel' file ls rs Hle H; [discriminate|].
  destruct fuel' as [|fuel']; [lia|]. simpl in *. eapply concatM_mono; [|exact H].
  intros x r _. apply file_line_mono; auto; [lia|]. intros. eapply IH; [|eassumption]. lia.
Qed.
Lemma compat_execute_mono f legacy fuel fuel' rs : fuel <= fuel' ->
  compat_execute f legacy fuel = Ok rs -> compat_execute f legacy fuel' = Ok rs.
Proof.
  unfold compat_execute. intros Hle Hx. apply bind_ok in Hx as (l & -> & Hx). simpl.
  eapply concatM_mono; [|exact Hx]. intros [[s a] n] r _ Hy.
  apply bind_ok in Hy as (sa & -> & Hy). apply bind_ok in Hy as (fl & -> & Hy). apply bind_ok in Hy as (rs' & Hr & Hy).
  cbn [bind]. rewrite (load_service_mono _ _ _ _ _ _ _ _ Hle Hr). exact Hy.
Qed.

(** ** Service and argument *)
Lemma validate_field sv ar : validate_service_and_argument sv ar =
  validate_service_and_argument (Some (field_of sv)) (Some (field_of ar)).
Proof. destruct sv, ar; reflexivity. Qed.
Definition validated (sv ar : option string) : Prop := validate_service_and_argument sv ar = Ok (sv, ar).
Lemma validate_idem sv ar sv' ar' : validate_service_and_argument sv ar = Ok (sv', ar') -> validated sv' ar'.
Proof.
  rewrite validate_field. intros H. apply validate_spec in H as [H1 H2]. unfold validated.
  rewrite validate_field. apply validate_spec. inv H1; inv H2; simpl; split; constructor; auto.
Qed.
Lemma service_arg_validate s a sv ar : service_arg s a sv ar <->
  validate_service_and_argument (Some s) (Some a) = Ok (sv, ar).
Proof. symmetry. apply validate_spec. Qed.

Lemma make_rule_field sv ar src tgt act ps file :
  make_rule sv ar src tgt act ps file = make_rule (Some (field_of sv)) (Some (field_of ar)) src tgt act ps file.
Proof. unfold make_rule. rewrite validate_field. auto. Qed.

Lemma from_line_service_spec sv ar line file r : has_char "," line = false ->
  from_line_service sv ar line file = Ok r <->
  exists src tgt act ps, fields line (src :: tgt :: act :: ps) /\
    rule_fields file (field_of sv :: field_of ar :: src :: tgt :: act :: ps) r.
Proof.
  intros Hc. unfold from_line_service. destruct (split_ws line) as [|src [|tgt l]] eqn:E;
    (pose proof E as E'; apply split_ws_fields in E').
  1-2: split; [discriminate|]; intros (s & t & a & ps & Hf & Hr); apply split_ws_fields in Hf; congruence.
  pose proof (fields_has_char _ _ _ E' Hc) as Hw. inversion Hw as [|? ? ? Hw']; subst. inversion Hw' as [|? ? ? Hw'']; subst.
  rewrite flat_split_single by auto. destruct l as [|act ps].
  - split; [discriminate|]; intros (s & t & a & ps & Hf & Hr); apply split_ws_fields in Hf; congruence.
  - rewrite make_rule_field, make_rule_spec. split.
    + intros Hm. exists src, tgt, act, ps. auto.
    + intros (s & t & a & ps' & Hf & Hr). apply split_ws_fields in Hf. rewrite E in Hf. inv Hf. auto.
Qed.

(** ** Lines *)
Lemma strip_begins_split l : skip_line (strip l) = false ->
  exists b b', blanks b /\ blanks b' /\ l = b +++ strip l +++ b' /\ begins (strip l) /\ starts "#" (strip l) = false.
Proof.
  unfold skip_line. intros H. apply orb_false_iff in H as [H1 H2].
  destruct (strip_spec l) as (b & b' & Hb & Hb' & He & Hc). exists b, b'. repeat split; auto.
  destruct Hc as [Hc|Hc]; auto. rewrite Hc in H1. discriminate.
Qed.
Lemma begins_app l b : begins l -> begins (l +++ b).
Proof. intros (c & s & -> & Hc). exists c, (s +++ b). auto. Qed.
Lemma starts1_app x l b : l <> "" -> starts (str1 x) (l +++ b) = starts (str1 x) l.
Proof. destruct l as [|c l]; [contradiction|]. reflexivity. Qed.
Lemma legacy_nonempty l l' : legacy_spelling l l' -> l <> "" -> l' <> "".
Proof. inversion 1; subst; (simpl; congruence). Qed.
Lemma compat_app_blanks l b : blanks b -> compat_subst (l +++ b) = compat_subst l +++ b.
Proof.
  intros Hb. destruct (legacy_total _ l (le_n _)) as [t Ht]. rewrite (legacy_compat _ _ Ht).
  apply legacy_compat. apply legacy_app_blanks; auto.
Qed.
Lemma begins_skip b l : blanks b -> begins l -> skip_line (strip (b +++ l)) = starts "#" l.
Proof.
  intros Hb Hl. rewrite <- (app_nil_s l) at 1. rewrite strip_blanks by (auto; reflexivity).
  destruct (strip_nonblank _ Hl) as (c & s & b' & He & Hs & Hb' & Hc). rewrite Hs. subst l. reflexivity.
Qed.
(** stripping and substituting, as seen from the unstripped line *)
Lemma service_line_view b l : blanks b -> begins l ->
  exists b', blanks b' /\ compat_subst l = compat_subst (strip (b +++ l)) +++ b' /\
  starts "!" (compat_subst (strip (b +++ l))) = starts "!" (compat_subst l) /\
  split_ws (compat_subst (strip (b +++ l))) = split_ws (compat_subst l).
Proof.
  intros Hb Hl.
  assert (strip (b +++ l) = strip l) as ->.
  { rewrite <- (app_nil_s l) at 1. apply strip_blanks; auto. reflexivity. }
  destruct (strip_nonblank _ Hl) as (c & s & b' & He & Hs & Hb' & Hc). rewrite Hs.
  exists b'. split; auto. subst l. rewrite compat_app_blanks by auto. split; auto. split.
  - change "!" with (str1 "!"). rewrite starts1_app; auto.
    destruct (legacy_total _ (String c s) (le_n _)) as [t Ht]. rewrite (legacy_compat _ _ Ht).
    eapply legacy_nonempty; eauto. discriminate.
  - unfold split_ws. symmetry. apply split_ws_app_blanks. auto.
Qed.
Lemma no_comma l : has_char "," (compat_subst l) = false.
Proof. destruct (legacy_total _ l (le_n _)) as [t Ht]. rewrite (legacy_compat _ _ Ht). eapply legacy_no_comma; eauto. Qed.

Lemma from_line_service_ws sv ar l l' file : split_ws l = split_ws l' ->
  from_line_service sv ar l file = from_line_service sv ar l' file.
Proof. unfold from_line_service. intros ->. auto. Qed.

Theorem load_service_sound (opens : string -> string -> list string -> Prop) openf :
  (forall p file ls, openf p = Ok (file, ls) -> opens p file ls) ->
  forall fuel sv ar file ls rs, validated sv ar ->
  load_service fuel openf sv ar file ls = Ok rs -> service_rules opens sv ar file ls rs.
Proof.
  intros Ho. induction fuel as [|fuel IH]; intros sv ar file ls rs Hv H; [discriminate|].
  simpl in H. revert rs H. induction ls as [|l ls IHl]; intros rs H.
  - simpl in H. inv H. constructor.
  - apply concatM_cons_ok in H as (a & r & Ha & Hr & ->). specialize (IHl _ Hr). clear Hr.
    unfold service_line in Ha. destruct (skip_line (strip l)) eqn:Es.
    + inv Ha. simpl. apply sr_inert; auto. apply skip_inert. auto.
    + destruct (strip_begins_split _ Es) as (b & b' & Hb & Hb' & He & Hl & Hh).
      set (core := strip l) in *. clearbody core. subst l.
      destruct (legacy_total _ core (le_n _)) as [l' Hl']. rewrite (legacy_compat _ _ Hl') in Ha.
      pose proof (legacy_app_blanks _ _ _ Hl' Hb') as Hl2.
      assert (Hne : l' <> "") by (eapply legacy_nonempty; eauto; destruct Hl as (? & ? & -> & _); discriminate).
      assert (Hss : starts "!" (l' +++ b') = starts "!" l') by (apply (starts1_app "!"); auto).
      assert (Hws : split_ws (l' +++ b') = split_ws l') by (apply split_ws_app_blanks; auto).
      destruct (starts "!" l') eqn:Eb.
      * destruct (split_ws l') as [|d ps] eqn:Ew; [discriminate|].
        destruct (String.eqb_spec d "!include"); [subst d|discriminate].
        destruct ps as [|p [|]]; try discriminate.
        apply bind_ok in Ha as (sa & Hsa & Ha). rewrite Hv in Hsa. inv Hsa.
        apply bind_ok in Ha as ([file' ls'] & Hf & Ha). simpl in Ha.
        eapply sr_include; eauto using begins_app. apply split_ws_fields. auto.
      * apply bind_ok in Ha as (x & Hx & Ha). inv Ha.
        apply from_line_service_spec in Hx; [|eapply legacy_no_comma; eauto].
        destruct Hx as (src & tgt & act & ps & Hf & Hr). simpl.
        eapply sr_rule; eauto using begins_app.
        -- change "#" with (str1 "#"). rewrite starts1_app; auto. destruct Hl as (? & ? & -> & _). discriminate.
        -- apply split_ws_fields. rewrite Hws. apply split_ws_fields. auto.
Qed.

Theorem load_service_complete (opens : string -> string -> list string -> Prop) openf :
  (forall p file ls, opens p file ls -> openf p = Ok (file, ls)) ->
  forall sv ar file ls rs, validated sv ar -> service_rules opens sv ar file ls rs ->
  exists fuel, load_service fuel openf sv ar file ls = Ok rs.
Proof.
  intros Ho sv ar file ls rs Hv H. induction H as
    [file|file l ls rs Hi H IH|file b l l' ls src tgt act ps r rs Hb Hl Hh Hl' Hn Hf Hr H IH
    |file b l l' ls p file' ls' rs1 rs2 Hb Hl Hl' Hn Hf Hop H1 IH1 H2 IH2].
  - exists 1. reflexivity.
  - destruct IH as [[|fuel] IH]; [discriminate|]. exists (S fuel). simpl in *.
    unfold service_line at 1. apply skip_inert in Hi. rewrite Hi. simpl. rewrite IH. auto.
  - destruct IH as [[|fuel] IH]; [discriminate|]. exists (S fuel). cbn [load_service concatM] in *.
    unfold service_line at 1. rewrite begins_skip by auto. rewrite Hh.
    destruct (service_line_view b l Hb Hl) as (b' & Hb' & He & Hs & Hw).
    rewrite Hs. rewrite (legacy_compat _ _ Hl'), Hn. rewrite (from_line_service_ws _ _ _ (compat_subst l)) by auto.
    assert (from_line_service sv ar (compat_subst l) file = Ok r) as ->.
    { apply from_line_service_spec; [apply no_comma|]. rewrite (legacy_compat _ _ Hl'). eauto 10. }
    cbn [bind]. rewrite IH. reflexivity.
  - destruct IH1 as [fuel1 IH1]. destruct IH2 as [[|fuel2] IH2]; [discriminate|].
    exists (S (max fuel1 fuel2)). simpl in IH2. cbn [load_service]. apply concatM_cons_ok. exists rs1, rs2. repeat split.
    + unfold service_line. rewrite begins_skip by auto.
      destruct (service_line_view b l Hb Hl) as (b' & Hb' & He & Hs & Hw).
      assert (starts "#" l = false) as ->.
      { destruct (starts "#" l) eqn:Eh; auto. apply starts_spec in Eh as [r ->].
        rewrite <- (legacy_compat _ _ Hl') in Hn. unfold compat_subst in Hn.
        change ("#" +++ r) with (String "#" r) in Hn. rewrite replace_miss in Hn by reflexivity.
        change "$" with (str1 "$") in Hn. change "," with (str1 ",") in Hn.
        rewrite replace1_miss in Hn by discriminate. rewrite replace1_miss in Hn by discriminate. discriminate. }
      rewrite Hs, Hw. rewrite (legacy_compat _ _ Hl'), Hn. apply split_ws_fields in Hf. rewrite Hf.
      cbn [String.eqb Ascii.eqb Bool.eqb]. simpl String.eqb. cbn iota. rewrite Hv. cbn [bind]. rewrite (Ho _ _ _ Hop). cbn [bind fst snd].
      eapply load_service_mono; [|exact IH1]. lia.
    + eapply concatM_mono; [|exact IH2]. intros x r _. apply service_line_mono.
      intros. eapply load_service_mono; [|eassumption]. lia.
Qed.

(** ** Main syntax *)
Definition readable (x : string * list string) : string * res (list string) := (fst x, Ok (snd x)).
Record loader_sound (L : loader) (opens : string -> string -> list string -> Prop)
  (lists : string -> list (string * list string) -> Prop) (legacy : list rule -> Prop) : Prop := {
  lso_open : forall p file ls, ld_open L p = Ok (file, ls) -> opens p file ls;
  lso_dir : forall p files, ld_dir L p = Ok (map readable files) -> lists p files;
  lso_compat : forall fuel rs, ld_compat L fuel = Ok rs -> legacy rs
}.
Record loader_complete (L : loader) (opens : string -> string -> list string -> Prop)
  (lists : string -> list (string * list string) -> Prop) (legacy : list rule -> Prop) : Prop := {
  lco_open : forall p file ls, opens p file ls -> ld_open L p = Ok (file, ls);
  lco_dir : forall p files, lists p files -> ld_dir L p = Ok (map readable files);
  lco_compat : forall rs, legacy rs -> exists fuel, ld_compat L fuel = Ok rs;
  lco_mono : compat_mono L
}.

Lemma files_readable (rec : string -> list string -> res (list rule)) files rs :
  concatM (fun fl : string * res (list string) => do ls <- snd fl; rec (fst fl) ls) files = Ok rs ->
  exists files', files = map readable files'.
Proof.
  revert rs. induction files as [|[file r] files IH]; intros rs H; [exists []; auto|].
  apply concatM_cons_ok in H as (a & b & Ha & Hb & ->). apply bind_ok in Ha as (ls & Hls & _). simpl in Hls.
  destruct (IH _ Hb) as [files' ->]. exists ((file, ls) :: files'). simpl. unfold readable at 2. simpl. rewrite Hls. auto.
Qed.

Lemma include_service_ok fuel openf s a p rs :
  include_service fuel openf (Some s) (Some a) p = Ok rs <->
  exists sv ar file ls, service_arg s a sv ar /\ openf p = Ok (file, ls) /\ validated sv ar /\
    load_service fuel openf sv ar file ls = Ok rs.
Proof.
  unfold include_service. split.
  - intros H. apply bind_ok in H as ([sv ar] & Hv & H). apply bind_ok in H as ([file ls] & Ho & H).
    exists sv, ar, file, ls. repeat split; auto; try (eapply validate_idem; eauto); apply validate_spec in Hv; tauto.
  - intros (sv & ar & file & ls & Hv & Ho & _ & H). apply service_arg_validate in Hv. rewrite Hv, Ho. exact H.
Qed.

Lemma from_line_strip l file : from_line (strip l) file = from_line l file.
Proof. unfold from_line. rewrite split_ws_strip. auto. Qed.

Theorem load_file_sound L opens lists legacy : loader_sound L opens lists legacy ->
  forall fuel file ls rs, load_file fuel L file ls = Ok rs -> text_rules opens lists legacy file ls rs.
Proof.
  intros HL. induction fuel as [|fuel IH]; intros file ls rs H; [discriminate|].
  simpl in H. revert rs H. induction ls as [|l ls IHl]; intros rs H.
  - simpl in H. inv H. constructor.
  - apply concatM_cons_ok in H as (a & r & Ha & Hr & ->). specialize (IHl _ Hr). clear Hr.
    unfold file_line in Ha. destruct (skip_line (strip l)) eqn:Es.
    + inv Ha. simpl. apply tr_inert; auto. apply skip_inert. auto.
    + rewrite split_ws_strip in Ha. destruct (starts "!" (strip l)) eqn:Eb.
      * destruct (split_ws l) as [|d ps] eqn:Ew; [discriminate|]. apply split_ws_fields in Ew.
        destruct (String.eqb_spec d "!include"); [subst d|destruct (String.eqb_spec d "!include-dir");
          [subst d|destruct (String.eqb_spec d "!include-service"); [subst d|destruct (String.eqb_spec d "!compat-4.0"); [subst d|discriminate]]]].
        -- destruct ps as [|p [|]]; try discriminate. apply bind_ok in Ha as ([file' ls'] & Hf & Ha). simpl in Ha.
           eapply tr_include; eauto. eapply lso_open; eauto.
        -- destruct ps as [|p [|]]; try discriminate. apply bind_ok in Ha as (files & Hf & Ha).
           destruct (files_readable _ _ _ Ha) as [files' ->].
           eapply tr_include_dir; eauto; [eapply lso_dir; eauto|].
           clear - IH Ha. revert a Ha. induction files' as [|[file' ls'] files' IHf]; intros a Ha.
           ++ simpl in Ha. inv Ha. constructor.
           ++ simpl map in Ha. apply concatM_cons_ok in Ha as (x & y & Hx & Hy & ->). simpl in Hx.
              constructor; auto.
        -- destruct ps as [|s [|ar [|p [|]]]]; try discriminate.
           apply include_service_ok in Ha as (sv & oar & file' & ls' & Hsa & Ho & Hv & Ha).
           eapply tr_include_service; eauto; [eapply lso_open; eauto|].
           eapply load_service_sound; eauto. intros. eapply lso_open; eauto.
        -- destruct ps; try discriminate. eapply tr_compat; eauto. eapply lso_compat; eauto.
      * apply bind_ok in Ha as (x & Hx & Ha). inv Ha. rewrite from_line_strip in Hx.
        apply from_line_spec in Hx as (ws & Hf & Hr). simpl. eapply tr_rule; eauto.
        -- intros Hi. apply skip_inert in Hi. congruence.
        -- intros Hd. apply starts_bang_directive in Hd. congruence.
Qed.

Scheme text_rules_min := Minimality for text_rules Sort Prop
  with files_rules_min := Minimality for files_rules Sort Prop.
Combined Scheme text_files_ind from text_rules_min, files_rules_min.

(** what a directive line does *)
Lemma file_line_directive L rec fuel file l d ps : fields l (d :: ps) -> starts "!" d = true ->
  file_line L rec fuel file l =
    if String.eqb d "!include" then
      match ps with
      | [p] => do fl <- ld_open L p; rec (fst fl) (snd fl)
      | _ => Err ESyntax
      end
    else if String.eqb d "!include-dir" then
      match ps with
      | [p] => do files <- ld_dir L p;
               concatM (fun fl : string * res (list string) => do ls <- snd fl; rec (fst fl) ls) files
      | _ => Err ESyntax
      end
    else if String.eqb d "!include-service" then
      match ps with
      | [service; argument; p] => include_service fuel (ld_open L) (Some service) (Some argument) p
      | _ => Err ESyntax
      end
    else if String.eqb d "!compat-4.0" then
      match ps with [] => ld_compat L fuel | _ => Err ESyntax end
    else Err ESyntax.
Proof.
  intros Hf Hd. pose proof (fields_directive _ _ _ Hf Hd) as Hdir. unfold file_line.
  destruct (skip_line (strip l)) eqn:Es.
  { apply skip_inert in Es. exfalso. eapply directive_not_inert; eauto. }
  apply starts_bang_directive in Hdir. rewrite Hdir, split_ws_strip. apply split_ws_fields in Hf. rewrite Hf. reflexivity.
Qed.
Lemma file_line_inert L rec fuel file l : inert l -> file_line L rec fuel file l = Ok [].
Proof. intros H. apply skip_inert in H. unfold file_line. rewrite H. auto. Qed.
Lemma file_line_rule L rec fuel file l : ~ inert l -> ~ directive l ->
  file_line L rec fuel file l = do r <- from_line l file; Ok [r].
Proof.
  intros Hi Hd. unfold file_line. destruct (skip_line (strip l)) eqn:Es; [exfalso; apply Hi, skip_inert; auto|].
  destruct (starts "!" (strip l)) eqn:Eb; [exfalso; apply Hd, starts_bang_directive; auto|]. rewrite from_line_strip. auto.
Qed.

Theorem load_file_complete L opens lists legacy : loader_complete L opens lists legacy ->
  (forall file ls rs, text_rules opens lists legacy file ls rs ->
     exists fuel, load_file fuel L file ls = Ok rs) /\
  (forall files rs, files_rules opens lists legacy files rs ->
     exists fuel, concatM (fun fl : string * res (list string) =>
       do ls <- snd fl; load_file fuel L (fst fl) ls) (map readable files) = Ok rs).
Proof.
  intros HL. pose proof (lco_mono _ _ _ _ HL) as HM.
  assert (Hstep : forall fuel1 file l ls rs1 rs2,
    (forall fuel, fuel1 <= fuel -> file_line L (load_file fuel L) fuel file l = Ok rs1) ->
    (exists fuel, load_file fuel L file ls = Ok rs2) -> exists fuel, load_file fuel L file (l :: ls) = Ok (rs1 ++ rs2)).
  { intros fuel1 file l ls rs1 rs2 H1 [[|fuel2] H2]; [discriminate|]. exists (S (max fuel1 fuel2)). cbn [load_file].
    apply concatM_cons_ok. exists rs1, rs2. repeat split; [apply H1; lia|].
    eapply concatM_mono; [|exact H2]. intros x r _. apply file_line_mono; auto; [lia|].
    intros. apply (load_file_mono _ HM fuel2); [lia|assumption]. }
  apply text_files_ind.
  - intros file. exists 1. reflexivity.
  - intros file l ls rs Hi _ IH. apply (Hstep 0 file l ls [] rs); auto.
    intros. apply file_line_inert. auto.
  - intros file l ls ws r rs Hi Hd Hf Hr _ IH. apply (Hstep 0 file l ls [r] rs); auto.
    intros. rewrite file_line_rule by auto.
    assert (from_line l file = Ok r) as -> by (apply from_line_spec; eauto). reflexivity.
  - intros file l ls p file' ls' rs1 rs2 Hf Ho _ [fuel1 IH1] _ IH2. apply (Hstep fuel1 file l ls rs1 rs2); auto.
    intros fuel Hle. rewrite (file_line_directive _ _ _ _ _ _ _ Hf) by reflexivity. simpl String.eqb. cbn iota.
    rewrite (lco_open _ _ _ _ HL _ _ _ Ho). simpl. eapply load_file_mono; eauto.
  - intros file l ls p files rs1 rs2 Hf Ho _ [fuel1 IH1] _ IH2. apply (Hstep fuel1 file l ls rs1 rs2); auto.
    intros fuel Hle. rewrite (file_line_directive _ _ _ _ _ _ _ Hf) by reflexivity. simpl String.eqb. cbn iota.
    rewrite (lco_dir _ _ _ _ HL _ _ Ho). cbn [bind]. eapply concatM_mono; [|exact IH1].
    intros [file' rls] r _ Hx. apply bind_ok in Hx as (ls' & Hls & Hx). simpl in *. rewrite Hls. simpl.
    eapply load_file_mono; eauto.
  - intros file l ls s a p sv ar file' ls' rs1 rs2 Hf Hsa Ho Hs _ IH2.
    assert (Hv : validated sv ar) by (apply service_arg_validate in Hsa; eapply validate_idem; eauto).
    destruct (load_service_complete opens (ld_open L) (lco_open _ _ _ _ HL) _ _ _ _ _ Hv Hs) as [fuel1 H1].
    apply (Hstep fuel1 file l ls rs1 rs2); auto.
    intros fuel Hle. rewrite (file_line_directive _ _ _ _ _ _ _ Hf) by reflexivity. simpl String.eqb. cbn iota.
    apply include_service_ok. exists sv, ar, file', ls'. repeat split; try apply Hsa; auto; [eapply lco_open; eauto|].
    eapply load_service_mono; eauto.
  - intros file l ls rs1 rs2 Hf Hc _ IH2. destruct (lco_compat _ _ _ _ HL _ Hc) as [fuel1 H1].
    apply (Hstep fuel1 file l ls rs1 rs2); auto.
    intros fuel Hle. rewrite (file_line_directive _ _ _ _ _ _ _ Hf) by reflexivity. simpl String.eqb. cbn iota.
    eapply HM; eauto.
  - exists 0. reflexivity.
  - intros file ls files rs1 rs2 _ [fuel1 IH1] _ [fuel2 IH2]. exists (max fuel1 fuel2). simpl map.
    apply concatM_cons_ok. exists rs1, rs2. repeat split.
    + simpl. eapply load_file_mono; [auto| |exact IH1]. lia.
    + eapply concatM_mono; [|exact IH2]. intros [file' rls] r _ Hx. apply bind_ok in Hx as (ls' & Hls & Hx). simpl in *. rewrite Hls. simpl.
      eapply load_file_mono; [auto| |exact Hx]. lia.
Qed.
