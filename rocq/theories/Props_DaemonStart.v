(** C102: qrexec-daemon reports truthfully whether it is ready *)
From Coq Require Import String Ascii List Bool Arith ZArith Lia.
From Verif Require Import Base ClientTools SpecClient ClientProofs Props_Options DaemonStart SpecDaemonStart.
From Verif Require Sanitize VchanTimeout SpecTimeout Props_Timeout Exec.
Import ListNotations.
Open Scope string_scope.
Open Scope list_scope.
Open Scope Z_scope.

(** ** Numbers *)
Lemma c_space_iff c : c_space c = true <-> white c.
Proof.
  unfold c_space, white. cbv zeta. rewrite orb_true_iff, andb_true_iff, Nat.eqb_eq, !Nat.leb_le. tauto.
Qed.
Lemma digit_iff c : Exec.digit c = true <-> a_digit c.
Proof.
  unfold Exec.digit, Sanitize.between, a_digit. rewrite andb_true_iff, !Nat.leb_le. cbn [nat_of_ascii]. 
  replace (nat_of_ascii "0") with 48%nat by reflexivity. replace (nat_of_ascii "9") with 57%nat by reflexivity. lia.
Qed.
Lemma digit_value c : Exec.digit c = true -> digit_val c = Some (Z.of_nat (nat_of_ascii c) - 48) /\ (Z.of_nat (nat_of_ascii c) - 48 <? 10) = true.
Proof.
  intros H. apply digit_iff in H. unfold a_digit in H. unfold digit_val. cbv zeta.
  replace (48 <=? Z.of_nat (nat_of_ascii c)) with true by (symmetry; apply Z.leb_le; lia).
  replace (Z.of_nat (nat_of_ascii c) <=? 57) with true by (symmetry; apply Z.leb_le; lia).
  split; [reflexivity|]. apply Z.ltb_lt. lia.
Qed.
Lemma value_digit c d : digit_val c = Some d -> (d <? 10) = true -> Exec.digit c = true /\ d = Z.of_nat (nat_of_ascii c) - 48.
Proof.
  intros H L. apply Z.ltb_lt in L. unfold digit_val in H. cbv zeta in H. rewrite digit_iff. unfold a_digit.
  destruct (48 <=? Z.of_nat (nat_of_ascii c)) eqn:A, (Z.of_nat (nat_of_ascii c) <=? 57) eqn:B; cbn [andb] in H;
    try (apply Z.leb_le in A); try (apply Z.leb_le in B).
  - injection H as <-. split; [lia|reflexivity].
  - destruct ((97 <=? Z.of_nat (nat_of_ascii c)) && (Z.of_nat (nat_of_ascii c) <=? 102)) eqn:E.
    + injection H as <-. apply andb_prop in E as [E1 E2]. apply Z.leb_le in E1. lia.
    + destruct ((65 <=? Z.of_nat (nat_of_ascii c)) && (Z.of_nat (nat_of_ascii c) <=? 70)) eqn:E'; [|discriminate].
      injection H as <-. apply andb_prop in E' as [E1 E2]. apply Z.leb_le in E1. lia.
  - apply Z.leb_gt in A. destruct ((97 <=? Z.of_nat (nat_of_ascii c)) && (Z.of_nat (nat_of_ascii c) <=? 102)) eqn:E.
    + apply andb_prop in E as [E1 E2]. apply Z.leb_le in E1. lia.
    + destruct ((65 <=? Z.of_nat (nat_of_ascii c)) && (Z.of_nat (nat_of_ascii c) <=? 70)) eqn:E'; [|discriminate].
      apply andb_prop in E' as [E1 E2]. apply Z.leb_le in E1. lia.
  - apply Z.leb_gt in A. apply Z.leb_gt in B. lia.
Qed.
Lemma leading_digits d : forall acc n rest, digits 10 acc d = Some n -> (forall c r, rest = String c r -> ~ a_digit c) -> leading acc (d +++ rest) = n.
Proof.
  induction d as [|c d IH]; intros acc n rest D R.
  - cbn [digits] in D. injection D as <-. cbn [append]. destruct rest as [|c r]; [reflexivity|]. cbn [leading].
    destruct (Exec.digit c) eqn:E; [|reflexivity]. apply digit_iff in E. destruct (R c r eq_refl E).
  - cbn [digits] in D. destruct (digit_val c) as [v|] eqn:V; [|discriminate]. destruct (v <? 10) eqn:L; [|discriminate].
    destruct (value_digit c v V L) as [E ->]. cbn [append leading]. rewrite E. apply IH; assumption.
Qed.
Lemma digit_split s : exists d rest, s = d +++ rest /\ (forall acc, exists n, digits 10 acc d = Some n) /\ (forall c r, rest = String c r -> ~ a_digit c).
Proof.
  induction s as [|c s (d & rest & -> & D & R)].
  - exists "", "". split; [reflexivity|]. split; [intros acc; exists acc; reflexivity|discriminate].
  - destruct (Exec.digit c) eqn:E.
    + exists (String c d), rest. split; [reflexivity|]. split; [|exact R]. intros acc.
      destruct (digit_value c E) as [V L]. cbn [digits]. rewrite V, L. apply D.
    + exists "", (String c (d +++ rest)). split; [reflexivity|]. split; [intros acc; exists acc; reflexivity|].
      intros c' r Q. assert (c = c') by congruence. subst c'. rewrite <- digit_iff, E. discriminate.
Qed.
Lemma skip_white w s : (forall c, has_char c w = true -> white c) -> skip_space (w +++ s) = skip_space s.
Proof.
  induction w as [|c w IH]; intros H; [reflexivity|]. cbn [append skip_space].
  assert (C : c_space c = true). { apply c_space_iff, H. cbn [has_char]. rewrite Ascii.eqb_refl. reflexivity. }
  rewrite C. apply IH. intros c' H'. apply H. cbn [has_char]. rewrite H'. apply orb_true_r.
Qed.
Lemma skip_split s : exists w, s = w +++ skip_space s /\ (forall c, has_char c w = true -> white c) /\ (forall c r, skip_space s = String c r -> ~ white c).
Proof.
  induction s as [|c s (w & E & W & R)].
  - exists "". cbn [skip_space]. split; [reflexivity|]. split; discriminate.
  - cbn [skip_space]. destruct (c_space c) eqn:C.
    + exists (String c w). split; [cbn [append]; congruence|]. split; [|exact R]. intros c' H. cbn [has_char] in H. apply orb_prop in H as [H|H].
      * apply Ascii.eqb_eq in H. subst c'. apply c_space_iff, C.
      * apply W, H.
    + exists "". split; [reflexivity|]. split; [discriminate|]. intros c' r Q. assert (c = c') by congruence. subst c'. rewrite <- c_space_iff, C. discriminate.
Qed.
Definition shown (s : string) : Z :=
  match skip_space s with
  | String c s' => if Ascii.eqb c "-" then - leading 0 s' else if Ascii.eqb c "+" then leading 0 s' else leading 0 (String c s')
  | EmptyString => 0
  end.
Lemma shown_digit t : (forall c r, t = String c r -> a_digit c) -> shown t = leading 0 t.
Proof.
  intros H. unfold shown. destruct t as [|c r]; [reflexivity|]. specialize (H c r eq_refl). unfold a_digit in H. cbn [skip_space].
  assert (C : c_space c = false). { destruct (c_space c) eqn:C; [|reflexivity]. apply c_space_iff in C. unfold white in C. lia. }
  rewrite C. destruct (Ascii.eqb c "-") eqn:M. { apply Ascii.eqb_eq in M. subst c. cbn in H. lia. }
  destruct (Ascii.eqb c "+") eqn:P; [|reflexivity]. apply Ascii.eqb_eq in P. subst c. cbn in H. lia.
Qed.
Lemma numeral_starts d n : d <> "" -> numeral 10 d n -> exists c r, d = String c r /\ a_digit c.
Proof.
  intros Ne N. destruct d as [|c r]; [congruence|]. exists c, r. split; [reflexivity|]. apply digit_iff. apply (numeral_first 10 c r n); [lia|exact N].
Qed.
Lemma reads_shown s z : reads s z -> shown s = z.
Proof.
  intros R. destruct R as [w s k d n rest W S Ne N R|w s k rest W S R].
  - unfold shown. rewrite skip_white by exact W. pose proof (proj2 (digits_spec 10 d n) N) as D.
    destruct S.
    + cbn [append]. change (shown (d +++ rest) = 1 * n). destruct (numeral_starts d n Ne N) as (c & r & Ed & C).
      rewrite shown_digit. { rewrite (leading_digits d 0 n rest D R). lia. }
      intros c' r' Q. rewrite Ed in Q. cbn [append] in Q. congruence.
    + cbn [append skip_space]. change (leading 0 (d +++ rest) = 1 * n). rewrite (leading_digits d 0 n rest D R). lia.
    + cbn [append skip_space]. change (- leading 0 (d +++ rest) = -1 * n). rewrite (leading_digits d 0 n rest D R). lia.
  - unfold shown. rewrite skip_white by exact W.
    assert (L : leading 0 rest = 0) by (apply (leading_digits "" 0 0 rest eq_refl); intros c r E; apply (R c r E)).
    destruct S.
    + cbn [append]. destruct rest as [|c r]; [reflexivity|]. destruct (R c r eq_refl) as [R1 R2]. destruct (R2 eq_refl) as (P & M & Wh).
      cbn [skip_space]. destruct (c_space c) eqn:C. { apply c_space_iff in C. contradiction. }
      destruct (Ascii.eqb_spec c "-"); [contradiction|]. destruct (Ascii.eqb_spec c "+"); [contradiction|]. exact L.
    + cbn [append skip_space]. change (leading 0 rest = 0). exact L.
    + cbn [append skip_space]. change (- leading 0 rest = 0). lia.
Qed.
Lemma reads_total s : exists z, reads s z.
Proof.
  destruct (skip_split s) as (w & E & W & R). rewrite E. remember (skip_space s) as t. clear Heqt E.
  assert (G : forall sg k u, sign sg k -> (sg = "" -> forall c r, u = String c r -> c <> "+"%char /\ c <> "-"%char /\ ~ white c) -> exists z, reads (w +++ sg +++ u) z).
  { intros sg k u S H. destruct (digit_split u) as (d & rest & -> & D & Rr). destruct (D 0) as (n & Dn). apply digits_spec in Dn.
    destruct d as [|c d].
    - exists 0. cbn [append] in *. apply (rd_nothing w sg k rest W S). intros c r Q. split; [apply (Rr c r Q)|]. intros Sg. apply (H Sg c r Q).
    - exists (k * n). apply rd_number; auto. discriminate. }
  destruct t as [|c t]. { apply (G "" 1 ""); [constructor|discriminate]. }
  destruct (Ascii.eqb_spec c "-") as [->|M]. { apply (G "-" (-1) t); [constructor|discriminate]. }
  destruct (Ascii.eqb_spec c "+") as [->|P]. { apply (G "+" 1 t); [constructor|discriminate]. }
  apply (G "" 1 (String c t)); [constructor|]. intros _ c' r Q. assert (c = c') by congruence. subst c'. split; [exact P|]. split; [exact M|]. apply (R c t eq_refl).
Qed.
Lemma to_int_spec z : as_int z (to_int (to_long z)).
Proof.
  assert (L : to_long z = in_long z).
  { unfold to_long, in_long, LONG_MAX. change (- 2 ^ 63) with (-9223372036854775808). change (2 ^ 63) with 9223372036854775808. destruct (Z.ltb_spec z (-9223372036854775808)); [lia|].
    destruct (Z.leb_spec 9223372036854775808 z); lia. }
  rewrite L. unfold as_int. remember (in_long z) as y. clear. unfold to_int. cbv zeta. change (2 ^ 31) with 2147483648. change (2 ^ 32) with 4294967296.
  pose proof (Z.div_mod y 4294967296 ltac:(lia)); pose proof (Z.mod_pos_bound y 4294967296 ltac:(lia)).
  set (q := y / 4294967296) in *; set (r := y mod 4294967296) in *; clearbody q r.
  destruct (Z.ltb_spec r 2147483648).
  - split; [lia|]. exists (- q). lia.
  - split; [lia|]. exists (- q - 1). lia.
Qed.
Lemma as_int_fun z n m : as_int z n -> as_int z m -> n = m.
Proof.
  unfold as_int. change (2 ^ 31) with 2147483648. change (2 ^ 32) with 4294967296. intros (A & q & B) (C & p & D). lia.
Qed.
(** every text is read as exactly one number; within the range of an int it is that number *)
Theorem C102_number s : (exists z, reads s z) /\
  forall z, reads s z -> (forall z', reads s z' -> z' = z) /\ (forall n, atoi s = n <-> as_int z n) /\ (- 2147483648 <= z <= 2147483647 -> atoi s = z).
Proof.
  split; [apply reads_total|]. intros z R. apply reads_shown in R.
  assert (A : as_int z (atoi s)). { change (as_int z (to_int (to_long (shown s)))). rewrite R. apply to_int_spec. }
  split. { intros z' R'. apply reads_shown in R'. congruence. }
  split. { intros n. split; [intros <-; exact A|apply (as_int_fun z); exact A]. }
  intros B. apply (as_int_fun z); [exact A|]. unfold as_int, in_long. change (2 ^ 31) with 2147483648. split; [lia|]. exists 0.
  change (- 2 ^ 63) with (-9223372036854775808). change (2 ^ 63) with 9223372036854775808. destruct (Z.ltb_spec z (-9223372036854775808)); [lia|]. destruct (Z.leb_spec 9223372036854775808 z); lia.
Qed.
Lemma ex_reads : reads " +12x" 12.
Proof.
  apply (rd_number " " "+" 1 "12" 12 "x").
  - intros c H. cbn [has_char] in H. rewrite orb_false_r in H. apply Ascii.eqb_eq in H. subst c. left. reflexivity.
  - constructor.
  - discriminate.
  - apply digits_spec. reflexivity.
  - intros c r E. assert (c = "x"%char) by congruence. subst c. unfold a_digit. cbn. lia.
Qed.
(** a number that is too large is read as a different one *)
Theorem C102_wrap_refuted : atoi "4294967301" = 5 /\ atoi "5abc" = 5.
Proof. split; reflexivity. Qed.

(** ** The command line *)
Definition d_code (o : d_opt) : found :=
  match o with
  | DHelp => ("h", None) | DQuiet => ("q", None) | DDir p => ("dir", Some p) | DPolicy p => ("p", Some p)
  | DDirect => ("D", None) | DUuid u => ("u", Some u)
  end.
Lemma d_words plus o ws rest : d_spelled o ws -> getopt plus d_shorts d_longs (ws ++ rest) = more (d_code o) (getopt plus d_shorts d_longs rest).
Proof.
  intros Hw. destruct o as [| |p|p| |u]; cbn [d_spelled d_code] in *;
    first [ eapply flag_ok; [exact Hw|short_words|long_words] | eapply value_ok; [exact Hw|short_words|long_words] ].
Qed.
Definition has (o : d_opt) (os : list d_opt) : bool := existsb (fun x => match x, o with DHelp, DHelp | DQuiet, DQuiet | DDirect, DDirect => true | _, _ => false end) os.
Lemma has_iff o os : (o = DHelp \/ o = DQuiet \/ o = DDirect) -> (has o os = true <-> In o os).
Proof.
  intros K. unfold has. rewrite existsb_exists. split.
  - intros (x & I & H). destruct x, o; try discriminate; exact I.
  - intros I. exists o. split; [exact I|]. destruct K as [->|[->| ->]]; reflexivity.
Qed.
Lemma d_options os : forall c,
  options d_option (map d_code os) c =
    if has DHelp os then inr 1
    else inl (mkOpts (o_quiet c || has DQuiet os) (or_else (last_of of_dir os) (o_dir c)) (or_else (last_of of_policy os) (o_policy c))
                (o_direct c || has DDirect os) (match last_of of_uuid os with Some u => Some u | None => o_uuid c end)).
Proof.
  induction os as [|o os IH]; intros c.
  - destruct c. cbn. rewrite !orb_false_r. reflexivity.
  - destruct o as [| |p|p| |u]; cbn [map d_code options d_option]; [reflexivity| | | | | ];
      rewrite IH; cbn [has existsb last_of of_dir of_policy of_uuid o_quiet o_dir o_policy o_direct o_uuid orb];
      change (existsb _ os) with (has DHelp os) at 1; destruct (has DHelp os); try reflexivity; unfold has.
    all: rewrite ?orb_true_r, ?orb_true_l; destruct (last_of of_dir os), (last_of of_policy os), (last_of of_uuid os); reflexivity.
Qed.
(** What a command line means *)
Theorem C102_command_line argv os ps : line false d_spelled argv os ps ->
  match d_main argv with
  | inl c =>
      ~ In DHelp os /\ (g_quiet c = true <-> In DQuiet os) /\ (g_direct c = true <-> In DDirect os) /\
      g_dir c = or_else (last_of of_dir os) "/var/run/qubes" /\ g_policy c = or_else (last_of of_policy os) "/usr/bin/qrexec-policy-exec" /\
      last_of of_uuid os = Some (g_uuid c) /\
      (exists id, g_id c = atoi id /\ g_id c > 0 /\ (ps = [id; g_name c] /\ g_user c = "user" \/ ps = [id; g_name c; g_user c]))
  | inr n => n = 1 /\ (In DHelp os \/ last_of of_uuid os = None \/ (List.length ps < 2 \/ 3 < List.length ps)%nat \/ exists id rest, ps = id :: rest /\ atoi id <= 0)
  end.
Proof.
  intros L. pose proof (getopt_line false d_spelled d_shorts d_longs d_code argv os ps (d_words false) L) as G.
  unfold d_main. rewrite G, d_options. destruct (has DHelp os) eqn:H.
  { split; [reflexivity|]. left. apply (has_iff DHelp os); auto. }
  assert (NH : ~ In DHelp os) by (intros I; apply (has_iff DHelp os) in I; [congruence|auto]).
  cbn [d_start o_quiet o_dir o_policy o_direct o_uuid orb].
  assert (Q : has DQuiet os = true <-> In DQuiet os) by (apply has_iff; auto).
  assert (D : has DDirect os = true <-> In DDirect os) by (apply has_iff; auto).
  destruct ps as [|id [|name [|user [|]]]].
  - split; [reflexivity|]. right; right; left. left. cbn [List.length]. lia.
  - split; [reflexivity|]. right; right; left. left. cbn [List.length]. lia.
  - destruct (last_of of_uuid os) as [u|] eqn:U. 2:{ split; [reflexivity|]. right; left. reflexivity. }
    destruct (atoi id <=? 0) eqn:A; [apply Z.leb_le in A|apply Z.leb_gt in A].
    + split; [reflexivity|]. right; right; right. exists id, [name]. auto.
    + cbn [g_quiet g_direct g_dir g_policy g_uuid g_id g_name g_user]. split; [exact NH|]. split; [exact Q|]. split; [exact D|]. split; [reflexivity|]. split; [reflexivity|].
      split; [reflexivity|]. exists id. split; [reflexivity|]. split; [lia|]. left. auto.
  - destruct (last_of of_uuid os) as [u|] eqn:U. 2:{ split; [reflexivity|]. right; left. reflexivity. }
    destruct (atoi id <=? 0) eqn:A; [apply Z.leb_le in A|apply Z.leb_gt in A].
    + split; [reflexivity|]. right; right; right. exists id, [name; user]. auto.
    + cbn [g_quiet g_direct g_dir g_policy g_uuid g_id g_name g_user]. split; [exact NH|]. split; [exact Q|]. split; [exact D|]. split; [reflexivity|]. split; [reflexivity|].
      split; [reflexivity|]. exists id. split; [reflexivity|]. split; [lia|]. right. reflexivity.
  - split; [reflexivity|]. right; right; left. right. cbn [List.length]. lia.
Qed.
(** Options that do not exist, and unclear abbreviations, are errors *)
Lemma d_nodup : NoDup (map fst d_longs).
Proof. cbn. repeat constructor; cbn; intuition discriminate. Qed.
Lemma d_distinct : distinct_meanings d_longs.
Proof.
  intros x y X Y. cbn in X, Y.
  repeat match goal with H : _ \/ _ |- _ => destruct H end; subst; try contradiction; cbn; try reflexivity; discriminate.
Qed.
Theorem C102_option_names name v rest : name <> "" -> has_char "=" name = false -> v = "" \/ (exists x, v = "=" +++ x) ->
  (means_none d_names name \/ ambiguous d_names name -> d_main (("--" +++ name +++ v) :: rest) = inr 1).
Proof.
  intros Ne Q V M. assert (F : find_long d_longs name = None).
  { destruct M as [M|M]; [apply find_none, M|apply find_ambiguous; [apply d_distinct|apply d_nodup|exact M]]. }
  destruct (unknown_first false d_shorts d_longs name v rest Ne Q F V) as (fs & ps & G). unfold d_main. rewrite G. reflexivity.
Qed.
Definition ex_argv : list string := ["--uuid=6b1e"; "-q"; "5"; "work"; "--socket-dir"; "/run/x"].
Lemma ex_line : line false d_spelled ex_argv [DUuid "6b1e"; DQuiet; DDir "/run/x"] ["5"; "work"].
Proof.
  apply (ln_option false d_spelled (DUuid "6b1e") ["--uuid=6b1e"]). { apply (vw_equals (Some "u") (Some "uuid") "6b1e" "uuid"). reflexivity. }
  apply (ln_option false d_spelled DQuiet ["-q"]). { apply (fw_short (Some "q") (Some "quiet") "q"). reflexivity. }
  apply ln_free; [reflexivity|right; intros r; discriminate|]. apply ln_free; [reflexivity|right; intros r; discriminate|].
  apply (ln_option false d_spelled (DDir "/run/x") ["--socket-dir"; "/run/x"] []). { apply (vw_long None (Some "socket-dir") "/run/x" "socket-dir"). reflexivity. }
  constructor.
Qed.
Example ex_main : d_main ex_argv = inl (mkConfig true "/run/x" "/usr/bin/qrexec-policy-exec" false "6b1e" 5 "work" "user").
Proof. reflexivity. Qed.

(** ** Readiness *)
(** Success is reported exactly if the daemon enters its main loop, and then everything was done
    before that, in this order *)
Lemma perform_serves c nowait ss : forall hs b done, perform c nowait ss hs = (Serves, b, done) -> done = ss /\ (In Report ss -> b = Some 0) /\ (~ In Report ss -> b = None).
Proof.
  induction ss as [|s ss IH]; intros hs b done P.
  - cbn [perform] in P. assert (b = None) by congruence. assert (done = []) by congruence. subst. split; [reflexivity|]. split; [intros []|auto].
  - destruct hs as [|h hs]; cbn [perform] in P; [discriminate|]. destruct (actual c nowait s h).
    + destruct (perform c nowait ss hs) as [[f b'] done'] eqn:E. injection P as -> Pb Pd. destruct (IH hs b' done' E) as (-> & B1 & B2).
      split; [congruence|]. split.
      * intros [->|I]; [congruence|]. specialize (B1 I). destruct s; congruence.
      * intros N. rewrite <- Pb. destruct s; try (apply B2; intros I; apply N; right; exact I). exfalso. apply N. left. reflexivity.
    + discriminate.
    + discriminate.
Qed.
Theorem C102_ready c hs status f done : g_direct c = false -> init c false true hs = (status, f, done) ->
  (status = Some 0 <-> f = Serves) /\ (status = Some 0 -> done = all_steps) /\
  (status = Some 3 <-> (String.length (g_name c) < 230)%nat /\ exists rest, hs = [Fine; Fine; Fine; Fine; TimesOut] ++ rest) /\
  (status = Some 0 \/ status = Some 1 \/ status = Some 3).
Proof.
  intros Dr I. unfold init, stages in I. rewrite Dr in I. cbn [app negb andb] in I.
  assert (LF : log_fits (g_name c) = true <-> (String.length (g_name c) < 230)%nat).
  { unfold log_fits. rewrite Nat.ltb_lt, !length_app_s. cbn [String.length]. lia. }
  destruct (log_fits (g_name c)) eqn:LG.
  - repeat (match type of I with context [hs] => idtac end; destruct hs as [|[] hs]; cbn [perform actual starter negb Z.eqb] in I; rewrite ?LG, ?Dr in I; cbn [perform actual starter negb Z.eqb] in I;
      try (assert (status = Some 1) by congruence; assert (f <> Serves) by congruence; subst status;
           split; [split; [discriminate|contradiction]|]; split; [discriminate|];
           split; [split; [discriminate|intros (_ & r & E); discriminate]|auto])).
    + assert (status = Some 0) by congruence. assert (f = Serves) by congruence. assert (done = all_steps) by (unfold all_steps; congruence). subst status f.
      split; [split; reflexivity|]. split; [auto|]. split; [|auto]. split; [discriminate|]. intros (_ & r & E). discriminate.
    + assert (status = Some 3) by congruence. assert (f = Ended 3) by congruence. subst status f.
      split; [split; discriminate|]. split; [discriminate|]. split; [|auto]. split; [|auto]. intros _. split; [apply LF; reflexivity|]. exists hs. reflexivity.
  - assert (N : ~ (String.length (g_name c) < 230)%nat) by (rewrite <- LF; discriminate).
    repeat (match type of I with context [hs] => idtac end; destruct hs as [|[] hs]; cbn [perform actual starter negb Z.eqb] in I; rewrite ?LG in I; cbn [perform actual starter negb Z.eqb] in I;
      try (assert (status = Some 1) by congruence; assert (f <> Serves) by congruence; subst status;
           split; [split; [discriminate|contradiction]|]; split; [discriminate|];
           split; [split; [discriminate|intros (? & _); contradiction]|auto])).
Qed.
(** With QREXEC_STARTUP_NOWAIT success is reported at once, whatever becomes of the daemon. With
    --direct the daemon itself is what ends. *)
Theorem C102_nowait c hs : g_direct c = false -> fst (fst (init c true true hs)) = Some 0.
Proof.
  intros D. unfold init. destruct (perform c true (stages c true) hs) as [[f b] done]. rewrite D. reflexivity.
Qed.
Lemma perform_prefix c nowait ss : forall hs f b done, perform c nowait ss hs = (f, b, done) -> exists rest, ss = done ++ rest.
Proof.
  induction ss as [|s ss IH]; intros hs f b done P.
  - cbn [perform] in P. exists []. assert (done = []) by congruence. subst. reflexivity.
  - destruct hs as [|h hs]; cbn [perform] in P; [exists (s :: ss); assert (done = []) by congruence; subst; reflexivity|].
    destruct (actual c nowait s h); [|exists (s :: ss); assert (done = []) by congruence; subst; reflexivity..].
    destruct (perform c nowait ss hs) as [[f' b'] done'] eqn:E. assert (done = s :: done') by congruence. subst done.
    destruct (IH hs f' b' done' E) as [rest ->]. exists rest. reflexivity.
Qed.
(** Whatever the configuration, the steps are done in this order, and the daemon serves only
    when all are done *)
Definition steps_of (direct nowait : bool) : list stage := if direct then direct_steps else if nowait then removelast all_steps else all_steps.
Lemma stages_steps c nowait : stages c nowait = steps_of (g_direct c) nowait.
Proof. unfold stages, steps_of. destruct (g_direct c), nowait; reflexivity. Qed.
Theorem C102_order c nowait ok hs status f done : init c nowait ok hs = (status, f, done) ->
  (exists rest, steps_of (g_direct c) nowait = done ++ rest) /\
  (f = Serves -> done = steps_of (g_direct c) nowait) /\
  (g_direct c = true <-> status = None) /\ (g_direct c = false -> ok = false -> status = Some 1).
Proof.
  intros I. unfold init in I. rewrite stages_steps in I. destruct (perform c nowait (steps_of (g_direct c) nowait) hs) as [[f' b] done'] eqn:P.
  assert (G : (exists rest, steps_of (g_direct c) nowait = done' ++ rest) /\ (f' = Serves -> done' = steps_of (g_direct c) nowait)).
  { split; [apply (perform_prefix _ _ _ _ _ _ _ P)|]. intros ->. apply (perform_serves _ _ _ _ _ _ P). }
  destruct (g_direct c) eqn:D.
  - assert (status = None) by congruence. assert (f = f') by congruence. assert (done = done') by congruence. subst. split; [apply G|]. split; [apply G|]. split; [tauto|discriminate].
  - destruct ok.
    + assert (f = f') by congruence. assert (done = done') by congruence. assert (status <> None) by congruence. subst. split; [apply G|]. split; [apply G|]. split; [split; congruence|discriminate].
    + assert (f = Killed) by congruence. assert (done = []) by congruence. assert (status = Some 1) by congruence. subst.
      split; [exists (steps_of false nowait); reflexivity|]. split; [discriminate|]. split; [split; discriminate|reflexivity].
Qed.
(** The status with which the daemon itself ends: 3 if it could not connect, otherwise 1 *)
Lemma perform_ended c nowait ss : forall hs n b done, perform c nowait ss hs = (Ended n, b, done) ->
  exists s rest, ss = done ++ s :: rest /\ n = match s with Connect => 3 | _ => 1 end.
Proof.
  induction ss as [|s ss IH]; intros hs n b done P; [discriminate|].
  destruct hs as [|h hs]; cbn [perform] in P; [discriminate|]. destruct (actual c nowait s h) eqn:A.
  - destruct (perform c nowait ss hs) as [[f' b'] done'] eqn:E. assert (done = s :: done') by congruence. assert (f' = Ended n) by congruence. subst done f'.
    destruct (IH hs n b' done' E) as (x & rest & -> & X). exists x, rest. split; [reflexivity|exact X].
  - assert (done = []) by congruence. assert (n = match s with Connect => 3 | _ => 1 end) by congruence. subst done. exists s, ss. auto.
  - assert (done = []) by congruence. assert (n = 3) by congruence. subst done n. exists s, ss. split; [reflexivity|].
    unfold actual in A. destruct s, h; try discriminate; try reflexivity. destruct (log_fits (g_name c)); discriminate.
Qed.
Theorem C102_own_status c nowait hs status n done : init c nowait true hs = (status, Ended n, done) ->
  exists s rest, steps_of (g_direct c) nowait = done ++ s :: rest /\ (n = 3 /\ s = Connect \/ n = 1 /\ s <> Connect).
Proof.
  intros I. unfold init in I. rewrite stages_steps in I. destruct (perform c nowait (steps_of (g_direct c) nowait) hs) as [[f' b] done'] eqn:P.
  assert (f' = Ended n) by (destruct (g_direct c); congruence). assert (done' = done) by (destruct (g_direct c); congruence). subst f' done'.
  destruct (perform_ended _ _ _ _ _ _ _ P) as (s & rest & E & X). exists s, rest. split; [exact E|]. destruct s; subst n; auto; right; (split; [reflexivity|discriminate]).
Qed.
(** If nothing goes wrong, the daemon serves *)
Theorem C102_works c nowait rest : (g_direct c = false -> String.length (g_name c) < 230)%nat ->
  init c nowait true (repeat Fine 11 ++ rest) = (if g_direct c then None else Some 0, Serves, steps_of (g_direct c) nowait).
Proof.
  intros L. unfold init, stages. destruct (g_direct c) eqn:D.
  - rewrite andb_false_r. reflexivity.
  - assert (LG : log_fits (g_name c) = true). { unfold log_fits. rewrite Nat.ltb_lt, !length_app_s. specialize (L eq_refl). cbn [String.length]. lia. }
    destruct nowait; cbn [app negb andb repeat perform actual]; rewrite LG; reflexivity.
Qed.
(** ** The time limit *)
Theorem C102_limit var : startup_timeout var > 0 /\
  (forall s n, var = Some s -> reads s n -> 0 < n <= 2147483647 -> startup_timeout var = n) /\
  (forall s n, var = Some s -> reads s n -> -2147483648 <= n <= 0 -> startup_timeout var = 60) /\
  (var = None -> startup_timeout var = 60).
Proof.
  unfold startup_timeout. repeat split.
  - destruct var as [s|]; [|lia]. destruct (atoi s <=? 0) eqn:E; [lia|]. apply Z.leb_gt in E. lia.
  - intros s n -> R B. destruct (C102_number s) as [_ N]. rewrite (proj2 (proj2 (N n R))) by lia. destruct (n <=? 0) eqn:E; [apply Z.leb_le in E; lia|reflexivity].
  - intros s n -> R B. destruct (C102_number s) as [_ N]. rewrite (proj2 (proj2 (N n R))) by lia. destruct (n <=? 0) eqn:E; [reflexivity|apply Z.leb_gt in E; lia].
  - intros ->. reflexivity.
Qed.
(** The step Connect is fine exactly if the agent connects within the limit *)
Theorem C102_connect var start ts : SpecTimeout.valid start -> (forall t n, In t ts -> fst (fst t) = Some n -> SpecTimeout.valid n) ->
  let limit := startup_timeout var in
  (connect true var (Some start) ts = Fine <->
    exists before t after, ts = before ++ t :: after /\ Forall (fun t => SpecTimeout.in_time start limit t /\ SpecTimeout.idle false t) before /\
      SpecTimeout.in_time start limit t /\ SpecTimeout.connected false t) /\
  (connect true var (Some start) ts = TimesOut <->
    exists before t after, ts = before ++ t :: after /\ Forall (fun t => SpecTimeout.in_time start limit t /\ SpecTimeout.idle false t) before /\
      SpecTimeout.ends_with false limit start t (-1)).
Proof.
  intros V W limit. destruct (C102_limit var) as [Pos _].
  pose proof (fun z => Props_Timeout.C98_result false limit start ts z V W) as R.
  pose proof (Props_Timeout.C98_no_abort false limit start ts V W) as NA.
  unfold connect. fold limit. destruct (fst (VchanTimeout.wait_for_connection false limit (Some start) ts)) as [[z|]|] eqn:E.
  - destruct (proj1 (R z) eq_refl) as (b & t & a & Et & Hb & Ew).
    assert (Z01 : z = 0 \/ z = -1) by (destruct Ew; auto).
    split; split.
    + destruct Z01 as [-> | ->]; cbn [Z.ltb Z.compare]; [|discriminate]. intros _. exists b, t, a. split; [exact Et|]. split; [exact Hb|]. inversion Ew; subst; auto.
    + intros (b' & t' & a' & Et' & Hb' & I' & C'). assert (X : Some (VchanTimeout.Returned z) = Some (VchanTimeout.Returned 0)).
      { apply R. exists b', t', a'. split; [exact Et'|]. split; [exact Hb'|]. constructor; assumption. }
      injection X as ->. reflexivity.
    + destruct Z01 as [-> | ->]; cbn [Z.ltb Z.compare]; [discriminate|]. intros _. exists b, t, a. auto.
    + intros (b' & t' & a' & Et' & Hb' & E'). assert (X : Some (VchanTimeout.Returned z) = Some (VchanTimeout.Returned (-1))).
      { apply R. exists b', t', a'. auto. }
      injection X as ->. reflexivity.
  - congruence.
  - split; split; try discriminate.
    + intros (b' & t' & a' & Et' & Hb' & I' & C'). assert (X : @None VchanTimeout.ended = Some (VchanTimeout.Returned 0)).
      { apply R. exists b', t', a'. split; [exact Et'|]. split; [exact Hb'|]. constructor; assumption. }
      discriminate.
    + intros (b' & t' & a' & Et' & Hb' & E'). assert (X : @None VchanTimeout.ended = Some (VchanTimeout.Returned (-1))) by (apply R; exists b', t', a'; auto).
      discriminate.
Qed.
