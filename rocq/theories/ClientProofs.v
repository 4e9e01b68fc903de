(** Proofs about ClientTools: reading of command lines *)
From Coq Require Import String Ascii List Bool Arith ZArith Lia.
From Verif Require Import Base ClientTools SpecClient.
From Verif Require Sanitize DaemonPolicy Exec.
Import ListNotations.
Open Scope string_scope.
Open Scope list_scope.
Open Scope Z_scope.

(** ** getopt *)
Definition more {A B} (x : A) (p : list A * B) : list A * B := let (l, b) := p in (x :: l, b).
Lemma free_false w : free_word w -> String.eqb w "--" = false /\ (starts "--" w = false) /\ (starts "-" w && negb (String.eqb w "-") = false)%bool.
Proof.
  intros [-> |F]; [repeat split; reflexivity|].
  destruct w as [|c w]; [repeat split; reflexivity|].
  assert (Ascii.eqb "-" c = false) as C.
  { destruct (Ascii.eqb_spec "-" c) as [<-|]; [|reflexivity]. exfalso. apply (F w). reflexivity. }
  cbn [starts]. rewrite C. rewrite Ascii.eqb_sym in C. cbn [String.eqb]. rewrite C. repeat split.
Qed.
Lemma getopt_line {O} plus (spelled : O -> list string -> Prop) sh lo (code : O -> found) argv os ps :
  (forall o ws rest, spelled o ws -> getopt plus sh lo (ws ++ rest) = more (code o) (getopt plus sh lo rest)) ->
  line plus spelled argv os ps -> getopt plus sh lo argv = (map code os, ps).
Proof.
  intros S L. induction L as [|ps|o ws argv os ps Ho L IH|w ps Hp F|w argv os ps Hp F L IH].
  - reflexivity.
  - reflexivity.
  - rewrite (S o ws argv Ho). rewrite IH. reflexivity.
  - destruct (free_false w F) as (F1 & F2 & F3). cbn [getopt]. rewrite F1, F2, F3, Hp. reflexivity.
  - destruct (free_false w F) as (F1 & F2 & F3). cbn [getopt]. rewrite F1, F2, F3, IH, Hp. reflexivity.
Qed.
Lemma flag_ok plus sh lo s l ws rest o :
  flag_words s l ws ->
  (forall c, s = Some c -> exists a, c = str1 a /\ a <> "-"%char /\ short_takes a sh = Some false /\ o = str1 a) ->
  (forall n, l = Some n -> has_char "=" n = false /\ n <> "" /\ find_long lo n = Some (false, o)) ->
  getopt plus sh lo (ws ++ rest) = more (o, None) (getopt plus sh lo rest).
Proof.
  intros F Hs Hl. destruct F as [c E|n E].
  - destruct (Hs c E) as (a & -> & N & T & ->). cbn [app].
    change ("-" +++ str1 a) with (String "-" (str1 a)). cbn [getopt].
    assert (Nb : Ascii.eqb "-" a = false) by (apply Ascii.eqb_neq; congruence).
    assert (Nb' : Ascii.eqb a "-" = false) by (apply Ascii.eqb_neq; congruence).
    cbn [String.eqb str1 starts Ascii.eqb]. rewrite Nb, Nb'. cbn [Bool.eqb andb negb sdrop]. unfold str1; cbn [cluster].
    rewrite T. destruct (getopt plus sh lo rest); reflexivity.
  - destruct (Hl n E) as (Q & N & Fn). cbn [app]. destruct n as [|a n]; [congruence|].
    change ("--" +++ String a n) with (String "-" (String "-" (String a n))). cbn [getopt].
    cbn [String.eqb starts Ascii.eqb Bool.eqb andb sdrop].
    apply split1_None in Q. rewrite Q, Fn. destruct (getopt plus sh lo rest); reflexivity.
Qed.
Lemma value_ok plus sh lo s l x ws rest o :
  value_words s l x ws ->
  (forall c, s = Some c -> exists a, c = str1 a /\ a <> "-"%char /\ short_takes a sh = Some true /\ o = str1 a) ->
  (forall n, l = Some n -> has_char "=" n = false /\ n <> "" /\ find_long lo n = Some (true, o)) ->
  getopt plus sh lo (ws ++ rest) = more (o, Some x) (getopt plus sh lo rest).
Proof.
  intros F Hs Hl. destruct F as [c E|c E Nx|n E|n E].
  - destruct (Hs c E) as (a & -> & N & T & ->). cbn [app].
    change ("-" +++ str1 a) with (String "-" (str1 a)). cbn [getopt].
    assert (Nb : Ascii.eqb "-" a = false) by (apply Ascii.eqb_neq; congruence).
    assert (Nb' : Ascii.eqb a "-" = false) by (apply Ascii.eqb_neq; congruence).
    cbn [String.eqb str1 starts Ascii.eqb]. rewrite Nb, Nb'. cbn [Bool.eqb andb negb sdrop]. unfold str1; cbn [cluster].
    rewrite T. destruct (getopt plus sh lo rest); reflexivity.
  - destruct (Hs c E) as (a & -> & N & T & ->). cbn [app]. destruct x as [|b x]; [congruence|].
    change ("-" +++ str1 a +++ String b x) with (String "-" (String a (String b x))). cbn [getopt].
    assert (Nb : Ascii.eqb "-" a = false) by (apply Ascii.eqb_neq; congruence).
    assert (Nb' : Ascii.eqb a "-" = false) by (apply Ascii.eqb_neq; congruence).
    cbn [String.eqb str1 starts Ascii.eqb]. rewrite Nb, Nb'. cbn [Bool.eqb andb negb sdrop]. unfold str1; cbn [cluster].
    rewrite T. destruct (getopt plus sh lo rest); reflexivity.
  - destruct (Hl n E) as (Q & N & Fn). cbn [app]. destruct n as [|a n]; [congruence|].
    change ("--" +++ String a n) with (String "-" (String "-" (String a n))). cbn [getopt].
    cbn [String.eqb starts Ascii.eqb Bool.eqb andb sdrop].
    apply split1_None in Q. rewrite Q, Fn. destruct (getopt plus sh lo rest); reflexivity.
  - destruct (Hl n E) as (Q & N & Fn). cbn [app]. destruct n as [|a n]; [congruence|].
    change ("--" +++ String a n +++ "=" +++ x) with (String "-" (String "-" (String a n +++ String "=" x))). cbn [getopt].
    change (String a n +++ String "=" x) with (String a (n +++ String "=" x)).
    cbn [String.eqb starts Ascii.eqb Bool.eqb andb sdrop].
    change (String a (n +++ String "=" x)) with (String a n +++ String "=" x).
    replace (split1 "=" (String a n +++ String "=" x)) with (Some (String a n, x)).
    2:{ symmetry. apply split1_spec. split; [reflexivity|exact Q]. }
    rewrite Fn. destruct (getopt plus sh lo rest); reflexivity.
Qed.
Definition vm_code (o : vm_opt) : found :=
  match o with
  | OFilterOut true => ("t", None) | OFilterOut false => ("no-t", None)
  | OFilterErr true => ("T", None) | OFilterErr false => ("no-T", None)
  | OAgent p => ("a", Some p) | OPrefix p => ("p", Some p) | OSource s => ("s", Some s)
  | OBuffer t => ("b", Some t) | OOneSocket => ("u", None) | OHelp => ("h", None)
  end.
Definition cl_code (o : cl_opt) : found :=
  match o with
  | CDomain d => ("d", Some d) | CLocal l => ("l", Some l) | CExec => ("e", None) | CNoCode => ("E", None)
  | CConnect t => ("c", Some t) | CPrefix p => ("p", Some p) | CFilterOut => ("t", None) | CFilterErr => ("T", None)
  | CTimeout t => ("w", Some t) | CWait => ("W", None) | CDir p => ("dir", Some p) | COneSocket => ("u", None)
  | CKill => ("k", None) | CHelp => ("h", None)
  end.
Ltac short_words :=
  let E := fresh in intros ? E; first [discriminate E | injection E as <-; eexists; split; [reflexivity|split; [discriminate|split; reflexivity]]].
Ltac long_words :=
  let E := fresh in intros ? E; first [discriminate E | injection E as <-; split; [reflexivity|split; [discriminate|reflexivity]]].
Lemma vm_words plus o ws rest : vm_spelled o ws ->
  getopt plus vm_shorts vm_longs (ws ++ rest) = more (vm_code o) (getopt plus vm_shorts vm_longs rest).
Proof.
  intros Hw. destruct o as [[]|[]|p|p|s|t| |]; cbn [vm_spelled vm_code] in *;
    first [ eapply flag_ok; [exact Hw|short_words|long_words] | eapply value_ok; [exact Hw|short_words|long_words] ].
Qed.
Lemma cl_words plus o ws rest : cl_spelled o ws ->
  getopt plus cl_shorts cl_longs (ws ++ rest) = more (cl_code o) (getopt plus cl_shorts cl_longs rest).
Proof.
  intros Hw. destruct o; cbn [cl_spelled cl_code] in *;
    first [ eapply flag_ok; [exact Hw|short_words|long_words] | eapply value_ok; [exact Hw|short_words|long_words] ].
Qed.

(** ** Numbers *)
Lemma digit_val_spec base c d : digit_in base c d <-> digit_val c = Some d /\ d < base.
Proof.
  unfold digit_val. split.
  - intros [c' H B|c' H B|c' H B].
    + replace ((48 <=? Z.of_nat (nat_of_ascii c')) && (Z.of_nat (nat_of_ascii c') <=? 57))%bool with true by lia. auto.
    + replace ((48 <=? Z.of_nat (nat_of_ascii c')) && (Z.of_nat (nat_of_ascii c') <=? 57))%bool with false by lia.
      replace ((97 <=? Z.of_nat (nat_of_ascii c')) && (Z.of_nat (nat_of_ascii c') <=? 102))%bool with true by lia. auto.
    + replace ((48 <=? Z.of_nat (nat_of_ascii c')) && (Z.of_nat (nat_of_ascii c') <=? 57))%bool with false by lia.
      replace ((97 <=? Z.of_nat (nat_of_ascii c')) && (Z.of_nat (nat_of_ascii c') <=? 102))%bool with false by lia.
      replace ((65 <=? Z.of_nat (nat_of_ascii c')) && (Z.of_nat (nat_of_ascii c') <=? 70))%bool with true by lia. auto.
  - intros [H B].
    destruct ((48 <=? Z.of_nat (nat_of_ascii c)) && (Z.of_nat (nat_of_ascii c) <=? 57))%bool eqn:E1;
      [injection H as <-; apply di_09; lia|].
    destruct ((97 <=? Z.of_nat (nat_of_ascii c)) && (Z.of_nat (nat_of_ascii c) <=? 102))%bool eqn:E2;
      [injection H as <-; apply di_af; lia|].
    destruct ((65 <=? Z.of_nat (nat_of_ascii c)) && (Z.of_nat (nat_of_ascii c) <=? 70))%bool eqn:E3;
      [injection H as <-; apply di_AF; lia|discriminate].
Qed.
Lemma digits_sound base s : forall a p v, numeral base p a -> digits base a s = Some v -> numeral base (p +++ s) v.
Proof.
  induction s as [|c s IH]; intros a p v P D; cbn [digits] in D.
  - injection D as <-. rewrite app_nil_s. exact P.
  - destruct (digit_val c) as [d|] eqn:E; [|discriminate]. destruct (d <? base) eqn:B; [|discriminate].
    change (String c s) with (str1 c +++ s). rewrite <- app_assoc_s. apply (IH (base * a + d)); [|exact D].
    apply nu_digit; [exact P|]. apply digit_val_spec. split; [exact E|lia].
Qed.
Lemma digits_app base s t : forall a, digits base a (s +++ t) = match digits base a s with Some b => digits base b t | None => None end.
Proof.
  induction s as [|c s IH]; intros a; [reflexivity|]. change (String c s +++ t) with (String c (s +++ t)). cbn [digits].
  destruct (digit_val c) as [d|]; [|reflexivity]. destruct (d <? base); [apply IH|reflexivity].
Qed.
Lemma digits_spec base s v : digits base 0 s = Some v <-> numeral base s v.
Proof.
  split.
  - intros H. apply (digits_sound base s 0 "" v); [constructor|exact H].
  - intros H. induction H as [|s n c d H IH D]; [reflexivity|]. rewrite digits_app, IH. unfold str1. cbn [digits].
    apply digit_val_spec in D as [-> B]. apply Z.ltb_lt in B. rewrite B. reflexivity.
Qed.
Lemma numeral_first base c s n : base <= 10 -> numeral base (String c s) n -> Exec.digit c = true.
Proof.
  intros B H. apply digits_spec in H. cbn [digits] in H. destruct (digit_val c) as [d|] eqn:E; [|discriminate].
  destruct (d <? base) eqn:L; [|discriminate]. assert (digit_in 10 c d) as [c' K _|c' K K'|c' K K'] by (apply digit_val_spec; split; [exact E|lia]).
  - unfold Exec.digit, Sanitize.between. change (nat_of_ascii "0") with 48%nat. change (nat_of_ascii "9") with 57%nat.
    apply andb_true_iff; split; apply Nat.leb_le; lia.
  - lia.
  - lia.
Qed.

Lemma parse_int_spec s n : parse_int s = Some n <-> c_number s n.
Proof.
  assert (Z0 : Exec.digit "0" = true) by reflexivity.
  split.
  - destruct s as [|c s]; [discriminate|]. cbn [parse_int]. destruct (Exec.digit c) eqn:Dc; [|discriminate]. cbn [negb].
    destruct (Ascii.eqb_spec c "0") as [->|N].
    + assert (O : forall v, match digits 8 0 s with Some n => if n <=? 2147483647 then Some n else None | None => None end = Some v ->
        c_number (String "0" s) v).
      { intros v H. destruct (digits 8 0 s) as [m|] eqn:E; [|discriminate]. destruct (m <=? 2147483647) eqn:L; [|discriminate].
        injection H as <-. apply (cn_oct s m); [apply digits_spec, E|lia]. }
      destruct s as [|x s]; [apply O|]. destruct s as [|d s]; [apply O|].
      destruct (Ascii.eqb x "x" || Ascii.eqb x "X")%bool eqn:X; [|apply O].
      intros H. destruct (digits 16 0 (String d s)) as [m|] eqn:E; [|discriminate]. destruct (m <=? 2147483647) eqn:L; [|discriminate].
      injection H as <-. change (String "0" (String x (String d s))) with (String "0" (String x "") +++ String d s).
      apply cn_hex; [|discriminate|apply digits_spec, E|lia].
      apply orb_true_iff in X as [X|X]; apply Ascii.eqb_eq in X as ->; auto.
    + intros H. destruct (digits 10 0 (String c s)) as [m|] eqn:E; [|discriminate]. destruct (m <=? 2147483647) eqn:L; [|discriminate].
      injection H as <-. apply cn_dec; [exact N|apply digits_spec, E|lia].
  - intros [c s' m N H L|s' m H L|x s' m X N H L].
    + cbn [parse_int]. rewrite (numeral_first 10 c s' m) by (lia || exact H). cbn [negb].
      apply Ascii.eqb_neq in N. rewrite N. apply digits_spec in H. rewrite H. apply Z.leb_le in L. rewrite L. reflexivity.
    + change ("0" +++ s') with (String "0" s'). cbn [parse_int]. rewrite Z0. cbn [negb Ascii.eqb Bool.eqb].
      assert (O : match digits 8 0 s' with Some n => if n <=? 2147483647 then Some n else None | None => None end = Some m).
      { apply digits_spec in H. rewrite H. apply Z.leb_le in L. rewrite L. reflexivity. }
      destruct s' as [|x s']; [exact O|]. destruct s' as [|d s']; [exact O|].
      destruct (Ascii.eqb x "x" || Ascii.eqb x "X")%bool eqn:X; [|exact O].
      exfalso. pose proof (numeral_first 8 x _ m ltac:(lia) H) as D.
      apply orb_true_iff in X as [X|X]; apply Ascii.eqb_eq in X as ->; discriminate D.
    + destruct s' as [|d s']; [congruence|]. apply digits_spec in H. apply Z.leb_le in L.
      destruct X as [->| ->]; cbn [append parse_int]; rewrite Z0; cbn [negb Ascii.eqb Bool.eqb orb]; rewrite H, L; reflexivity.
Qed.

(** ** The options of qrexec-client-vm *)
Lemma times_cons {O A} (f : O -> option A) o os : times f (o :: os) = ((match f o with Some _ => 1 | None => 0 end) + times f os)%nat.
Proof. unfold times. cbn [filter]. destruct (f o); reflexivity. Qed.
Definition held {A} (o : option A) : nat := match o with Some _ => 1%nat | None => 0%nat end.
Ltac by_last := match goal with H : context [last_of ?f ?os] |- context [last_of ?f ?os] => revert H; destruct (last_of f os); cbn [or_else]; intros; assumption end.
Ltac option_case IH os :=
  match goal with |- context [options _ _ ?w] => specialize (IH w) end; cbn [v_buffer v_out v_err v_path v_prefix v_source v_socket held] in IH;
  destruct (options _ _ _) as [v'|n]; [
    destruct IH as (I1 & I2 & I3 & I4 & I5 & I6 & I7 & I8 & I9 & I10 & I11 & I12);
    repeat split; try assumption; try (intros t [E|I]; [discriminate|auto]); try lia; try by_last
  | destruct IH as (I1 & I2 & I3); repeat split; [intros (J1 & J2 & J3 & J4 & J5); apply I1; repeat split; auto; try lia; intros t I; apply J4; right; exact I
    | intros E; right; apply I2, E | exact I3]].
Lemma vm_options stream os : forall v,
  match options (vm_option stream) (map vm_code os) v with
  | inl v' =>
      (times o_prefix os + held (v_prefix v) <= 1)%nat /\ (times o_source os + held (v_source v) <= 1)%nat /\
      (times o_socket os + (if v_socket v then 1 else 0) <= (if stream then 1 else if v_socket v then 1 else 0))%nat /\
      (forall t, In (OBuffer t) os -> exists n, c_number t n) /\ times o_help os = 0%nat /\
      v_out v' = match last_of o_out os with Some b => Some b | None => v_out v end /\
      v_err v' = match last_of o_err os with Some b => Some b | None => v_err v end /\
      v_path v' = or_else (last_of o_agent os) (v_path v) /\
      v_prefix v' = match last_of o_prefix os with Some b => Some b | None => v_prefix v end /\
      v_source v' = match last_of o_source os with Some b => Some b | None => v_source v end /\
      (match last_of o_buffer os with Some t => c_number t (v_buffer v') | None => v_buffer v' = v_buffer v end) /\
      v_socket v' = (match last_of o_socket os with Some _ => true | None => v_socket v end)
  | inr n =>
      ~ ((times o_prefix os + held (v_prefix v) <= 1)%nat /\ (times o_source os + held (v_source v) <= 1)%nat /\
      (times o_socket os + (if v_socket v then 1 else 0) <= (if stream then 1 else if v_socket v then 1 else 0))%nat /\
      (forall t, In (OBuffer t) os -> exists n, c_number t n) /\ times o_help os = 0%nat) /\
      (n = 0 -> In OHelp os) /\ (n = 0 \/ n = 1 \/ n = 2)
  end.
Proof.
  induction os as [|o os IH]; intros v.
  - cbn [map options]. cbn [last_of or_else]. unfold times. cbn [filter List.length].
    destruct v as [b u e p pr s so]. cbn. repeat split; auto; destruct pr, s, so, stream; cbn; try lia; contradiction.
  - cbn [map options].
    destruct v as [b u e p pr s so].
    destruct o as [[]|[]|x|x|x|x| |]; cbn [vm_code vm_option String.eqb Ascii.eqb Bool.eqb];
      cbn [v_buffer v_out v_err v_path v_prefix v_source v_socket].
    all: rewrite !times_cons; cbn [o_prefix o_source o_socket o_help last_of o_out o_err o_agent o_buffer Nat.add].
    all: try option_case IH os.
    + destruct pr as [pr|]; cbn [held]; [repeat split; [lia|discriminate|auto]|]. option_case IH os.
    + destruct s as [s|]; cbn [held]; [repeat split; [lia|discriminate|auto]|]. option_case IH os.
    + destruct (parse_int x) as [m|] eqn:P.
      * apply parse_int_spec in P. option_case IH os.
        -- intros t [E|I]; [injection E as <-; eauto|auto].
        -- revert I11. destruct (last_of o_buffer os); [auto|]. intros ->. exact P.
      * split; [|split; [discriminate|auto]]. intros (_ & _ & _ & H & _). destruct (H x (or_introl eq_refl)) as [m H'].
        apply parse_int_spec in H'. congruence.
    + destruct so; cbn [orb]; [repeat split; [destruct stream; lia|discriminate|auto]|].
      destruct stream; cbn [negb]; [|repeat split; [lia|discriminate|auto]].
      option_case IH os.
    + split; [lia|]. split; [left; reflexivity|auto].
Qed.

(** ** The options of qrexec-client *)
Lemma parse_connect_spec s id name n : parse_connect s = Some (id, name, n) <-> connect_text s id name n.
Proof.
  unfold parse_connect. split.
  - destruct (split1 "," s) as [[i r]|] eqn:E; [|discriminate]. destruct (Nat.leb_spec 32 (String.length i)); [discriminate|].
    destruct (split1 "," r) as [[m t]|] eqn:E'; [|discriminate]. destruct (parse_int t) as [d|] eqn:P; [|discriminate].
    intros K. injection K as <- <- <-. apply split1_spec in E as [-> H1]. apply split1_spec in E' as [-> H2].
    apply parse_int_spec in P. change (String "," (m +++ String "," t)) with ("," +++ m +++ "," +++ t).
    constructor; auto. lia.
  - intros [i m num d H1 H2 H3 H4].
    replace (split1 "," (i +++ "," +++ m +++ "," +++ num)) with (Some (i, m +++ "," +++ num)) by (symmetry; apply split1_spec; auto).
    destruct (Nat.leb_spec 32 (String.length i)); [lia|].
    replace (split1 "," (m +++ "," +++ num)) with (Some (m, num)) by (symmetry; apply split1_spec; auto).
    apply parse_int_spec in H4. rewrite H4. reflexivity.
Qed.
Lemma connect_text_fun t a b c a' b' c' : connect_text t a b c -> connect_text t a' b' c' -> a = a' /\ b = b' /\ c = c'.
Proof. intros H1 H2. apply parse_connect_spec in H1, H2. rewrite H1 in H2. injection H2. auto. Qed.
Lemma c_number_fun t n m : c_number t n -> c_number t m -> n = m.
Proof. intros H1 H2. apply parse_int_spec in H1, H2. congruence. Qed.
Lemma dom0_spec s : DaemonPolicy.target_refers_to_dom0 s = true <-> is_dom0 s.
Proof.
  unfold is_dom0. destruct s as [|c s]; cbn [DaemonPolicy.target_refers_to_dom0].
  - split; [discriminate|intros [H|[H|H]]; discriminate H].
  - destruct (Ascii.eqb_spec c "@") as [->|N1]; [rewrite String.eqb_eq; split; [intros ->; auto|intros [H|[H|H]]; [discriminate H|injection H; auto|discriminate H]]|].
    destruct (Ascii.eqb_spec c "d") as [->|N2]; [rewrite String.eqb_eq; split; [intros ->; auto|intros [H|[H|H]]; [injection H; auto|discriminate H|discriminate H]]|].
    destruct (Ascii.eqb_spec c "u") as [->|N3]; [rewrite String.eqb_eq; split; [intros ->; auto|intros [H|[H|H]]; [discriminate H|discriminate H|injection H; auto]]|].
    split; [discriminate|intros [H|[H|H]]; injection H; congruence].
Qed.
Definition good_connect (t id name : string) (n : Z) : Prop := connect_text t id name n /\ ~ is_dom0 name /\ n <> 0.
Definition cl_rel (stream : bool) (os : list cl_opt) (c : cl_opts) : Prop :=
  (times p_connect os + held (c_conn c) <= 1)%nat /\
  (forall t, In (CConnect t) os -> exists id name n, good_connect t id name n) /\
  (times p_prefix os + held (c_prefix c) <= 1)%nat /\
  (forall t, In (CTimeout t) os -> exists n, c_number t n) /\
  (times p_socket os + (if c_socket c then 1 else 0) <= (if stream then 1 else if c_socket c then 1 else 0))%nat /\
  times p_help os = 0%nat.
Definition or_given {O A} (f : O -> option A) (os : list O) (v d : bool) : bool := match last_of f os with Some _ => v | None => d end.
Definition or_keep {O A} (f : O -> option A) (os : list O) (d : option A) : option A := match last_of f os with Some x => Some x | None => d end.
Definition cl_result (os : list cl_opt) (c c' : cl_opts) : Prop :=
  c_dom c' = or_keep p_domain os (c_dom c) /\ c_local c' = or_keep p_local os (c_local c) /\
  c_just c' = or_given p_exec os true (c_just c) /\ c_code c' = or_given p_nocode os false (c_code c) /\
  match last_of p_connect os with
  | Some t => exists id name n, c_conn c' = Some (id, name, n) /\ good_connect t id name n
  | None => c_conn c' = c_conn c
  end /\
  c_prefix c' = or_keep p_prefix os (c_prefix c) /\ c_out c' = or_given p_out os true (c_out c) /\
  c_err c' = or_given p_err os true (c_err c) /\
  match last_of p_timeout os with Some t => c_number t (c_timeout c') | None => c_timeout c' = c_timeout c end /\
  c_wait c' = or_given p_wait os true (c_wait c) /\ c_socket c' = or_given p_socket os true (c_socket c) /\
  c_kill c' = or_given p_kill os true (c_kill c).
Lemma or_keep_cons {O A} (f : O -> option A) o os d : or_keep f (o :: os) d = or_keep f os (match f o with Some x => Some x | None => d end).
Proof. unfold or_keep. cbn [last_of]. destruct (last_of f os); [reflexivity|]. destruct (f o); reflexivity. Qed.
Lemma or_given_cons {O A} (f : O -> option A) o os v d : or_given f (o :: os) v d = or_given f os v (match f o with Some x => v | None => d end).
Proof. unfold or_given. cbn [last_of]. destruct (last_of f os); [reflexivity|]. destruct (f o); reflexivity. Qed.
Definition cl_outcome_ok (stream : bool) (os : list cl_opt) (c : cl_opts) (r : cl_opts + Z) : Prop :=
  match r with
  | inl c' => cl_rel stream os c /\ cl_result os c c'
  | inr n => ~ cl_rel stream os c /\ (n = 0 -> In CHelp os) /\ (n = 0 \/ n = 1 \/ n = 2)
  end.
Lemma cl_plain stream o os c c1 r :
  (match p_connect o with Some _ => False | None => c_conn c1 = c_conn c end) ->
  (match p_timeout o with Some t => c_number t (c_timeout c1) | None => c_timeout c1 = c_timeout c end) ->
  (match p_prefix o with Some x => c_prefix c = None /\ c_prefix c1 = Some x | None => c_prefix c1 = c_prefix c end) ->
  (match p_socket o with Some _ => stream = true /\ c_socket c = false /\ c_socket c1 = true | None => c_socket c1 = c_socket c end) ->
  p_help o = None ->
  c_dom c1 = (match p_domain o with Some x => Some x | None => c_dom c end) ->
  c_local c1 = (match p_local o with Some x => Some x | None => c_local c end) ->
  c_just c1 = (match p_exec o with Some x => true | None => c_just c end) ->
  c_code c1 = (match p_nocode o with Some x => false | None => c_code c end) ->
  c_out c1 = (match p_out o with Some x => true | None => c_out c end) ->
  c_err c1 = (match p_err o with Some x => true | None => c_err c end) ->
  c_wait c1 = (match p_wait o with Some x => true | None => c_wait c end) ->
  c_kill c1 = (match p_kill o with Some x => true | None => c_kill c end) ->
  cl_outcome_ok stream os c1 r -> cl_outcome_ok stream (o :: os) c r.
Proof.
  intros Hc Ht Hp Hs Hh H1 H2 H3 H4 H5 H6 H7 H8 R.
  destruct (p_connect o) as [t|] eqn:Pc; [contradiction|].
  assert (Rel : cl_rel stream os c1 <-> cl_rel stream (o :: os) c).
  { unfold cl_rel. rewrite !times_cons, Pc, Hc, Hh.
    assert (A1 : (forall t, In (CConnect t) os -> exists id name n, good_connect t id name n) <->
                 (forall t, In (CConnect t) (o :: os) -> exists id name n, good_connect t id name n)).
    { split; [|intros H t I; apply H; right; exact I]. intros H t [E|I]; [subst o; discriminate Pc|auto]. }
    assert (A2 : (forall t, In (CTimeout t) os -> exists n, c_number t n) <-> (forall t, In (CTimeout t) (o :: os) -> exists n, c_number t n)).
    { split; [|intros H t I; apply H; right; exact I]. intros H t [E|I]; [subst o; cbn in Ht; eauto|auto]. }
    assert (A3 : (times p_prefix os + held (c_prefix c1) <= 1)%nat <-> ((match p_prefix o with Some _ => 1 | None => 0 end + times p_prefix os) + held (c_prefix c) <= 1)%nat).
    { destruct (p_prefix o); [destruct Hp as [-> ->]|rewrite Hp]; cbn [held]; lia. }
    assert (A4 : (times p_socket os + (if c_socket c1 then 1 else 0) <= (if stream then 1 else if c_socket c1 then 1 else 0))%nat <->
       ((match p_socket o with Some _ => 1 | None => 0 end + times p_socket os) + (if c_socket c then 1 else 0) <= (if stream then 1 else if c_socket c then 1 else 0))%nat).
    { destruct (p_socket o); [destruct Hs as (-> & -> & ->)|rewrite Hs]; [lia|]. cbn [Nat.add]. tauto. }
    rewrite <- A1, <- A2, <- A3, <- A4. cbn [Nat.add]. tauto. }
  unfold cl_outcome_ok in *. destruct r as [c'|n].
  - destruct R as [R1 R2]. split; [apply Rel, R1|].
    destruct R2 as (F1 & F2 & F3 & F4 & F5 & F6 & F7 & F8 & F9 & F10 & F11 & F12). unfold cl_result.
    rewrite !or_keep_cons, !or_given_cons, <- H1, <- H2, <- H3, <- H4, <- H5, <- H6, <- H7, <- H8.
    split; [exact F1|]. split; [exact F2|]. split; [exact F3|]. split; [exact F4|].
    split. { cbn [last_of]. rewrite Pc. revert F5. destruct (last_of p_connect os); [auto|]. rewrite Hc. auto. }
    split. { rewrite F6. f_equal. destruct (p_prefix o); [apply Hp|exact Hp]. }
    split; [exact F7|]. split; [exact F8|].
    split. { cbn [last_of]. revert F9. destruct (last_of p_timeout os); [auto|]. intros E. destruct (p_timeout o); rewrite E; exact Ht. }
    split; [exact F10|]. split; [|exact F12].
    rewrite F11. f_equal. destruct (p_socket o); [apply Hs|exact Hs].
  - destruct R as (R1 & R2 & R3). split; [rewrite <- Rel; exact R1|]. split; [intros E; right; auto|exact R3].
Qed.
Lemma cl_options stream os : forall c, cl_outcome_ok stream os c (options (cl_option stream) (map cl_code os) c).
Proof.
  induction os as [|o os IH]; intros c.
  - cbn [map options]. split.
    + unfold cl_rel, times. cbn. destruct c as [d l j co cn pr ou er ti wa so ki]. cbn.
      repeat split; try contradiction; destruct cn, pr, so, stream; cbn; lia.
    + unfold cl_result, or_keep, or_given. cbn. repeat split.
  - cbn [map options]. destruct c as [d l j co cn pr ou er ti wa so ki].
    destruct o; cbn [cl_code cl_option String.eqb Ascii.eqb Bool.eqb].
    all: try (eapply cl_plain; [..|apply IH]; cbn; auto; fail).
    + (* -c *) destruct cn as [q|].
      { split; [|split; [discriminate|auto]]. unfold cl_rel. rewrite times_cons. cbn. lia. }
      destruct (parse_connect t) as [[[id name] n]|] eqn:P.
      2:{ split; [|split; [discriminate|auto]]. intros (_ & H & _). destruct (H t (or_introl eq_refl)) as (i & m & k & H' & _).
          apply parse_connect_spec in H'. congruence. }
      apply parse_connect_spec in P.
      destruct (DaemonPolicy.target_refers_to_dom0 name || (n =? 0))%bool eqn:B.
      { split; [|split; [discriminate|auto]]. intros (_ & H & _). destruct (H t (or_introl eq_refl)) as (i & m & k & H' & H2 & H3).
        destruct (connect_text_fun _ _ _ _ _ _ _ P H') as (<- & <- & <-).
        apply orb_true_iff in B as [B|B]; [apply dom0_spec in B; auto|apply Z.eqb_eq in B; auto]. }
      apply orb_false_iff in B as [B1 B2].
      assert (G : good_connect t id name n).
      { split; [exact P|]. split; [intros H; apply dom0_spec in H; congruence|apply Z.eqb_neq; exact B2]. }
      specialize (IH (mkCl d l j co (Some (id, name, n)) pr ou er ti wa so ki)).
      destruct (options _ _ _) as [c'|m].
      * destruct IH as [(R1 & R2 & R3 & R4 & R5 & R6) F]. cbn [c_conn held c_prefix c_socket] in *. split.
        -- unfold cl_rel. rewrite !times_cons. cbn [p_connect p_prefix p_socket p_help c_conn held c_prefix c_socket Nat.add].
           split; [lia|]. split; [intros t' [E|I]; [injection E as <-; eauto|auto]|].
           split; [exact R3|]. split; [intros t' [E|I]; [discriminate|auto]|]. split; [exact R5|exact R6].
        -- destruct F as (F1 & F2 & F3 & F4 & F5 & F6 & F7 & F8 & F9 & F10 & F11 & F12). unfold cl_result.
           rewrite !or_keep_cons, !or_given_cons. cbn [p_domain p_local p_exec p_nocode p_prefix p_out p_err p_wait p_socket p_kill].
           cbn [c_dom c_local c_just c_code c_prefix c_out c_err c_wait c_socket c_kill c_conn c_timeout] in *.
           repeat (split; [assumption|]). split; [|repeat (split; [assumption|])].
           ++ cbn [last_of p_connect].
              assert (Z0 : last_of p_connect os = None).
              { clear - R1. assert (T : times p_connect os = 0%nat) by lia. clear R1. induction os as [|o os IH]; [reflexivity|].
                rewrite times_cons in T. cbn [last_of]. rewrite IH by lia. destruct (p_connect o); [lia|reflexivity]. }
              rewrite Z0 in *. eauto.
           ++ split; [cbn [last_of p_timeout]; revert F9; destruct (last_of p_timeout os); auto|]. auto.
      * destruct IH as (R1 & R2 & R3). split; [|split; [intros E; right; auto|exact R3]].
        intros (J1 & J2 & J3 & J4 & J5 & J6). apply R1. rewrite !times_cons in *. cbn [p_connect p_prefix p_socket p_help c_conn held c_prefix c_socket Nat.add] in *.
        unfold cl_rel. cbn [c_conn held c_prefix c_socket]. split; [lia|]. split; [intros t' I; apply J2; right; exact I|].
        split; [exact J3|]. split; [intros t' I; apply J4; right; exact I|]. split; [exact J5|exact J6].
    + destruct pr as [pr|].
      { split; [|split; [discriminate|auto]]. unfold cl_rel. rewrite !times_cons. cbn. lia. }
      eapply cl_plain; [..|apply IH]; cbn; auto.
    + destruct (parse_int t) as [n|] eqn:P.
      * apply parse_int_spec in P. eapply cl_plain; [..|apply IH]; cbn; auto.
      * split; [|split; [discriminate|auto]]. intros (_ & _ & _ & H & _). destruct (H t (or_introl eq_refl)) as [n H'].
        apply parse_int_spec in H'. congruence.
    + destruct so; cbn [orb]; [split; [|split; [discriminate|auto]]; unfold cl_rel; rewrite !times_cons; cbn; destruct stream; lia|].
      destruct stream; cbn [negb]; [|split; [|split; [discriminate|auto]]; unfold cl_rel; rewrite !times_cons; cbn; lia].
      eapply cl_plain; [..|apply IH]; cbn; auto.
    + split; [|split; [left; reflexivity|auto]]. unfold cl_rel. rewrite !times_cons. cbn. lia.
Qed.
