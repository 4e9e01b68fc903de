(** Proofs about libqrexec/exec.c: command lines, port numbers *)
From Coq Require Import String Ascii List Bool Arith ZArith Lia.
From Verif Require Import Base Sanitize DaemonAgent Exec SpecExec.
Import ListNotations.
Open Scope string_scope.
Open Scope list_scope.
Open Scope Z_scope.

Lemma size_nonneg s : 0 <= size s.
Proof. unfold size. lia. Qed.
Lemma zlen_size s : zlen s = size s.
Proof. reflexivity. Qed.
Lemma size_app a b : size (a +++ b) = size a + size b.
Proof. unfold size. rewrite length_app_s. lia. Qed.
Lemma size_0 s : size s = 0 <-> s = "".
Proof. unfold size. destruct s; simpl; split; intros; auto; try discriminate; lia. Qed.

Lemma starts_true p s : starts p s = true <-> begins p s.
Proof. apply starts_spec. Qed.
Lemma starts_false p s : starts p s = false <-> ~ begins p s.
Proof. rewrite <- starts_true. destruct (starts p s); split; congruence. Qed.

Lemma split1_at c a b : lacks c a -> split1 c (a +++ String c b) = Some (a, b).
Proof. intros H. apply split1_spec. auto. Qed.
Lemma split1_lacks c s : lacks c s -> split1 c s = None.
Proof. intros H. apply split1_None. exact H. Qed.
Lemma split1_end c w rest : lacks c w -> rest = "" \/ begins (str1 c) rest ->
  match split1 c (w +++ rest) with Some (s, _) => s | None => w +++ rest end = w.
Proof.
  intros Hw [->|[r ->]].
  - rewrite app_nil_s, split1_lacks; auto.
  - change (str1 c +++ r) with (String c r). rewrite split1_at; auto.
Qed.

Lemma service_part_split desc :
  exists name arg full, service_part desc name arg full /\
    name = match split1 "+" desc with Some (n, _) => n | None => desc end /\
    full = match split1 "+" desc with Some _ => desc | None => desc +++ "+" end /\
    arg = match split1 "+" desc with Some (_, a) => Some a | None => None end.
Proof.
  destruct (split1 "+" desc) as [[n a]|] eqn:E.
  - apply split1_spec in E as [-> H]. exists n, (Some a), (n +++ String "+" a).
    repeat split; auto. change (String "+" a) with ("+" +++ a). constructor. exact H.
  - apply split1_None in E. exists desc, None, (desc +++ "+"). repeat split; auto. constructor. exact E.
Qed.
Lemma service_part_fun desc n a f n' a' f' :
  service_part desc n a f -> service_part desc n' a' f' -> n = n' /\ a = a' /\ f = f'.
Proof.
  assert (F : forall n a f, service_part desc n a f ->
    n = match split1 "+" desc with Some (n, _) => n | None => desc end /\
    f = match split1 "+" desc with Some _ => desc | None => desc +++ "+" end /\
    a = match split1 "+" desc with Some (_, a) => Some a | None => None end).
  { intros x y z H. destruct H as [n0 Hn|n0 a0 Hn].
    - rewrite split1_lacks; auto.
    - change (n0 +++ "+" +++ a0) with (n0 +++ String "+" a0). rewrite split1_at; auto. }
  intros H1 H2. apply F in H1. apply F in H2. intuition congruence.
Qed.

Lemma end_of_word_split rest : exists w tail, rest = w +++ tail /\ lacks " " w /\ end_of_word tail /\
  w = match split1 " " rest with Some (s, _) => s | None => rest end.
Proof.
  destruct (split1 " " rest) as [[a b]|] eqn:E.
  - apply split1_spec in E as [-> H]. exists a, (String " " b). repeat split; auto.
    right. exists b. reflexivity.
  - apply split1_None in E. exists rest, "". rewrite app_nil_s. repeat split; auto. left. reflexivity.
Qed.

Lemma parse_call_iff cmd d n a s :
  parse_call cmd = Some (d, n, a, s) <-> call_text cmd (mkCall d n a s).
Proof.
  unfold parse_call. split.
  - destruct (split1 " " cmd) as [[desc rest]|] eqn:E; [|discriminate].
    apply split1_spec in E as [-> Hd].
    destruct (service_part_split desc) as (name & arg & full & Hsp & Hn & Hf & Ha).
    cbv zeta. rewrite <- Hn, <- Hf, <- Ha. change zlen with size.
    destruct (Z.eqb_spec (size desc) 0); [discriminate|].
    destruct (size desc >? MAX_SERVICE_NAME_LEN) eqn:E1; [discriminate|].
    destruct (size name >? NAME_MAX) eqn:E2; [discriminate|].
    destruct (size name <? 1) eqn:E3; [discriminate|].
    destruct (end_of_word_split rest) as (w & tail & -> & Hw & Ht & Hws). rewrite <- Hws.
    destruct (Z.eqb_spec (size w) 0); [discriminate|]. intros H. injection H as <- <- <- <-.
    change (desc +++ String " " (w +++ tail)) with (desc +++ " " +++ w +++ tail).
    unfold MAX_SERVICE_NAME_LEN, NAME_MAX in *.
    constructor; auto; try lia. intros ->. apply n1. reflexivity.
  - intros H. inversion H as [desc name arg full source rest Hsp Hd Hl Hn Hs Hne He]; subst.
    change (desc +++ " " +++ s +++ rest) with (desc +++ String " " (s +++ rest)).
    rewrite split1_at by exact Hd.
    destruct (service_part_split desc) as (name' & arg' & full' & Hsp' & Hn' & Hf' & Ha').
    destruct (service_part_fun _ _ _ _ _ _ _ Hsp Hsp') as (<- & <- & <-).
    cbv zeta. rewrite <- Hn', <- Hf', <- Ha'. change zlen with size.
    assert (Hle : size n <= size desc).
    { destruct Hsp; [lia|]. rewrite size_app. pose proof (size_nonneg ("+" +++ arg)). lia. }
    destruct (Z.eqb_spec (size desc) 0); [lia|].
    unfold MAX_SERVICE_NAME_LEN, NAME_MAX.
    destruct (size desc >? 65000) eqn:E1; [lia|].
    destruct (size n >? 255) eqn:E2; [lia|].
    destruct (size n <? 1) eqn:E3; [lia|].
    rewrite split1_end; auto.
    destruct (Z.eqb_spec (size s) 0) as [E|E]; [apply size_0 in E; contradiction|]. reflexivity.
Qed.

(** ** The whole line *)
Definition to_cmd (u : option string) (g : bool) (text : string) (c : option call) : parsed_command :=
  match c with
  | Some c => mkCmd u text g (Some (c_full c)) (Some (c_name c)) (c_arg c) (Some (c_source c))
  | None => mkCmd u text g None None None None
  end.

Lemma user_part_iff strip line u rest :
  user_part strip line u rest <->
  (if strip then match split1 ":" line with None => None | Some (x, c) => Some (Some x, c) end
   else Some (None, line)) = Some (u, rest).
Proof.
  split.
  - intros H. destruct H as [s|x s Hx]; [reflexivity|].
    change (x +++ ":" +++ s) with (x +++ String ":" s). rewrite split1_at; auto.
  - destruct strip.
    + destruct (split1 ":" line) as [[x c]|] eqn:E; [|discriminate].
      intros H. injection H as <- <-. apply split1_spec in E as [-> Hx].
      change (String ":" c) with (":" +++ c). constructor. exact Hx.
    + intros H. injection H as <- <-. constructor.
Qed.
Lemma gui_part_iff rest g cmd :
  gui_part rest g cmd <->
  g = starts "nogui:" rest /\ cmd = (if starts "nogui:" rest then sdrop 6 rest else rest).
Proof.
  split.
  - intros H. destruct H as [s|s Hs].
    + rewrite starts_app. split; [reflexivity|].
      change 6%nat with (String.length "nogui:"). rewrite sdrop_app. reflexivity.
    + apply starts_false in Hs. rewrite Hs. auto.
  - intros [-> ->]. destruct (starts "nogui:" rest) eqn:E.
    + rewrite (sdrop_starts _ _ E) at 1. constructor.
    + constructor. apply starts_false. exact E.
Qed.

Lemma rpc_prefix cmd : starts "QUBESRPC" cmd = true ->
  starts " " (sdrop 8 cmd) = true -> cmd = "QUBESRPC " +++ sdrop 9 cmd.
Proof.
  intros H1 H2. apply sdrop_starts in H1. change (String.length "QUBESRPC") with 8%nat in H1.
  remember (sdrop 8 cmd) as r. destruct r as [|c r]; [discriminate|].
  simpl in H2. destruct (Ascii.eqb_spec " " c); [|discriminate]. subst c.
  assert (E : sdrop 9 cmd = r) by (rewrite H1; reflexivity). rewrite E. exact H1.
Qed.

Lemma parse_iff line strip p :
  parse_qubes_rpc_command line strip = Some p <->
  exists u g text c, line_means strip line u g text c /\ p = to_cmd u g text c.
Proof.
  split.
  - unfold parse_qubes_rpc_command.
    destruct (if strip then match split1 ":" line with None => None | Some (x, c) => Some (Some x, c) end
              else Some (None, line)) as [[u rest]|] eqn:EU; [|discriminate].
    apply user_part_iff in EU. cbv zeta.
    assert (HG : gui_part rest (starts "nogui:" rest) (if starts "nogui:" rest then sdrop 6 rest else rest))
      by (apply gui_part_iff; auto).
    remember (if starts "nogui:" rest then sdrop 6 rest else rest) as cmd.
    destruct (starts "QUBESRPC" cmd) eqn:E1.
    + destruct (starts " " (sdrop 8 cmd)) eqn:E2; [|discriminate]. cbn [negb].
      destruct (parse_call (sdrop 9 cmd)) as [[[[d n] a] s]|] eqn:E3; [|discriminate].
      intros H. injection H as <-. apply parse_call_iff in E3.
      exists u, (starts "nogui:" rest), (sdrop 9 cmd), (Some (mkCall d n a s)). split; [|reflexivity].
      apply lm_call with rest; auto. rewrite <- rpc_prefix; auto.
    + intros H. injection H as <-. exists u, (starts "nogui:" rest), cmd, None. split; [|reflexivity].
      apply lm_plain with rest; auto. apply starts_false. exact E1.
  - intros (u & g & text & c & H & ->). unfold parse_qubes_rpc_command.
    destruct H as [rest text c HU HG HC|rest text HU HG HN].
    + apply user_part_iff in HU. rewrite HU. apply gui_part_iff in HG as [-> Hc].
      cbv zeta. rewrite <- Hc.
      replace (starts "QUBESRPC" ("QUBESRPC " +++ text)) with true by reflexivity.
      change (sdrop 8 ("QUBESRPC " +++ text)) with (" " +++ text).
      change (sdrop 9 ("QUBESRPC " +++ text)) with text.
      rewrite starts_app. cbn [negb]. destruct c as [d n a s].
      apply parse_call_iff in HC. rewrite HC. reflexivity.
    + apply user_part_iff in HU. rewrite HU. apply gui_part_iff in HG as [-> Hc].
      cbv zeta. rewrite <- Hc. apply starts_false in HN. rewrite HN. reflexivity.
Qed.

(** ** Port numbers *)
Definition dval (c : ascii) : Z := Z.of_nat (nat_of_ascii c) - 48.
Fixpoint dnum (s : string) (acc : Z) : Z :=
  match s with EmptyString => acc | String c s' => dnum s' (10 * acc + dval c) end.

Lemma digit_true c : digit c = true <-> 48 <= Z.of_nat (nat_of_ascii c) <= 57.
Proof.
  unfold digit, between. change (nat_of_ascii "0") with 48%nat. change (nat_of_ascii "9") with 57%nat.
  rewrite andb_true_iff, !Nat.leb_le. lia.
Qed.
Lemma digit19 c : between "1" "9" c = true <-> digit c = true /\ dval c <> 0.
Proof.
  rewrite digit_true. unfold dval, between.
  change (nat_of_ascii "1") with 49%nat. change (nat_of_ascii "9") with 57%nat.
  rewrite andb_true_iff, !Nat.leb_le. lia.
Qed.
Lemma digit_of_iff c d : digit_of c d <-> digit c = true /\ d = dval c.
Proof.
  rewrite digit_true. split.
  - intros H. destruct H. auto.
  - intros [H ->]. constructor. exact H.
Qed.
Lemma dnum_app a b acc : dnum (a +++ b) acc = dnum b (dnum a acc).
Proof. revert acc. induction a; intros; simpl; auto. Qed.

Lemma decimal_form s n : decimal s n ->
  exists c r, s = String c r /\ digit c = true /\ dval c <> 0 /\ sforall digit r = true /\ n = dnum s 0.
Proof.
  induction 1 as [c d Hd Hn|s n c d H IH Hd].
  - apply digit_of_iff in Hd as [Hc ->]. exists c, "". simpl. repeat split; auto.
  - destruct IH as (c0 & r & -> & H1 & H2 & H3 & H4). apply digit_of_iff in Hd as [Hc ->].
    exists c0, (r +++ str1 c). simpl. repeat split; auto.
    + rewrite sforall_app, H3. simpl. rewrite Hc. reflexivity.
    + rewrite dnum_app. simpl. subst n. reflexivity.
Qed.
Lemma decimal_intro s n r : decimal s n -> sforall digit r = true -> decimal (s +++ r) (dnum r n).
Proof.
  revert s n. induction r as [|c r IH]; intros s n H Hr; simpl in *.
  - rewrite app_nil_s. exact H.
  - apply andb_true_iff in Hr as [Hc Hr].
    replace (s +++ String c r) with ((s +++ str1 c) +++ r) by (rewrite app_assoc_s; reflexivity).
    apply IH; auto. apply dec_next; auto. apply digit_of_iff. auto.
Qed.
Lemma decimal_iff s n : decimal s n <->
  exists c r, s = String c r /\ digit c = true /\ dval c <> 0 /\ sforall digit r = true /\ n = dnum s 0.
Proof.
  split; [apply decimal_form|]. intros (c & r & -> & H1 & H2 & H3 & ->).
  change (String c r) with (str1 c +++ r) at 1. cbn [dnum].
  apply decimal_intro; auto. replace (10 * 0 + dval c) with (dval c) by lia.
  constructor; auto. apply digit_of_iff. auto.
Qed.

Fixpoint pow10 (s : string) : Z := match s with EmptyString => 1 | String _ s' => 10 * pow10 s' end.
Lemma pow10_pos s : 1 <= pow10 s.
Proof. induction s; cbn [pow10]; lia. Qed.
Lemma dval_range c : digit c = true -> 0 <= dval c <= 9.
Proof. rewrite digit_true. unfold dval. lia. Qed.
Lemma dnum_acc s acc : dnum s acc = acc * pow10 s + dnum s 0.
Proof.
  revert acc. induction s as [|c s IH]; intros acc; cbn [dnum pow10]; [lia|].
  rewrite (IH (10 * acc + dval c)), (IH (10 * 0 + dval c)). lia.
Qed.
Lemma dnum_range s : sforall digit s = true -> 0 <= dnum s 0 < pow10 s.
Proof.
  induction s as [|c s IH]; cbn [sforall dnum pow10]; intros H; [lia|].
  apply andb_true_iff in H as [Hc Hs]. specialize (IH Hs). apply dval_range in Hc.
  rewrite dnum_acc. nia.
Qed.
Lemma pow10_len a b : String.length a = String.length b -> pow10 a = pow10 b.
Proof. revert b. induction a; destruct b; simpl; intros H; try discriminate; auto. f_equal. rewrite (IHa b); auto. Qed.
Lemma str_leb_num a b : sforall digit a = true -> sforall digit b = true ->
  String.length a = String.length b -> str_leb a b = (dnum a 0 <=? dnum b 0).
Proof.
  revert b. induction a as [|x a IH]; intros [|y b] Ha Hb Hl; try discriminate; auto.
  cbn [sforall] in Ha, Hb. apply andb_true_iff in Ha as [Hx Ha], Hb as [Hy Hb].
  injection Hl as Hl. specialize (IH b Ha Hb Hl). cbn [str_leb dnum].
  rewrite IH, (dnum_acc a (10 * 0 + dval x)), (dnum_acc b (10 * 0 + dval y)).
  pose proof (dnum_range a Ha) as Ra. pose proof (dnum_range b Hb) as Rb.
  pose proof (pow10_len a b Hl) as Ep. rewrite Ep in *. pose proof (pow10_pos b).
  assert (Ex : Z.of_nat (nat_of_ascii x) = dval x + 48) by (unfold dval; lia).
  assert (Ey : Z.of_nat (nat_of_ascii y) = dval y + 48) by (unfold dval; lia).
  destruct (Nat.ltb_spec (nat_of_ascii x) (nat_of_ascii y)) as [L|L].
  - symmetry. apply Z.leb_le. assert (dval x + 1 <= dval y) by lia. cbn [orb]. nia.
  - destruct (Nat.eqb_spec (nat_of_ascii x) (nat_of_ascii y)) as [E|E].
    + cbn [orb andb]. assert (dval x = dval y) as -> by lia.
      destruct (Z.leb_spec (dnum a 0) (dnum b 0)); symmetry; [apply Z.leb_le|apply Z.leb_gt]; lia.
    + cbn [orb andb]. symmetry. apply Z.leb_gt. assert (dval y + 1 <= dval x) by lia. nia.
Qed.

Lemma pow10_bound s k : size s = Z.of_nat k -> pow10 s = 10 ^ Z.of_nat k.
Proof.
  revert k. induction s as [|c s IH]; intros k H.
  - unfold size in H. simpl in H. destruct k; [reflexivity|lia].
  - unfold size in H. cbn [String.length] in H. destruct k as [|k]; [lia|].
    cbn [pow10]. rewrite (IH k) by (unfold size; lia).
    rewrite (Nat2Z.inj_succ k), Z.pow_succ_r by lia. reflexivity.
Qed.

Lemma validate_port_iff p : validate_port p = true <-> exists n, 1 <= n <= 65535 /\ decimal p n.
Proof.
  assert (K : (exists n, 1 <= n <= 65535 /\ decimal p n) <->
     exists c r, p = String c r /\ digit c = true /\ dval c <> 0 /\ sforall digit r = true /\ dnum p 0 <= 65535).
  { split.
    - intros (n & Hn & H). apply decimal_iff in H as (c & r & E & H1 & H2 & H3 & ->).
      exists c, r. repeat split; auto. lia.
    - intros (c & r & E & H1 & H2 & H3 & H4). exists (dnum p 0). split.
      + split; [|lia]. subst p. cbn [dnum]. rewrite dnum_acc. pose proof (pow10_pos r).
        apply dval_range in H1. pose proof (dnum_range r H3). nia.
      + apply decimal_iff. exists c, r. auto. }
  rewrite K. clear K. destruct p as [|c r].
  { simpl. split; [discriminate|]. intros (c & r & H & _). discriminate. }
  unfold validate_port. split.
  - destruct (between "1" "9" c) eqn:E1; [|discriminate]. cbn [negb].
    destruct (sforall digit r) eqn:E2; [|discriminate]. cbn [negb].
    change zlen with size. intros H. apply digit19 in E1 as [Hc Hn].
    exists c, r. repeat split; auto.
    assert (Hs : sforall digit (String c r) = true) by (cbn [sforall]; rewrite Hc, E2; reflexivity).
    destruct (size (String c r) >? 5) eqn:G1; [discriminate|].
    destruct (size (String c r) <? 5) eqn:G2.
    + pose proof (dnum_range _ Hs) as R.
      destruct (Z_of_nat_complete (size (String c r)) (size_nonneg _)) as [k Hk].
      rewrite (pow10_bound _ k Hk) in R. 
      assert (10 ^ Z.of_nat k <= 10 ^ 4) by (apply Z.pow_le_mono_r; lia). lia.
    + rewrite str_leb_num in H; auto.
      * apply Z.leb_le in H. exact H.
      * assert (E5 : size (String c r) = 5) by lia. unfold size in E5. simpl String.length at 2. lia.
  - intros (c' & r' & E & H1 & H2 & H3 & H4). injection E as <- <-.
    assert (E1 : between "1" "9" c = true) by (apply digit19; auto). rewrite E1, H3. cbn [negb].
    change zlen with size.
    assert (Hs : sforall digit (String c r) = true) by (cbn [sforall]; rewrite H1, H3; reflexivity).
    assert (L : pow10 r <= dnum (String c r) 0).
    { cbn [dnum]. rewrite dnum_acc. pose proof (dnum_range r H3). pose proof (pow10_pos r).
      apply dval_range in H1. nia. }
    assert (S1 : size (String c r) = size r + 1) by (unfold size; cbn [String.length]; lia).
    destruct (Z_of_nat_complete (size r) (size_nonneg _)) as [k Hk].
    rewrite (pow10_bound _ k Hk) in L.
    destruct (size (String c r) >? 5) eqn:G1.
    { assert (10 ^ 5 <= 10 ^ Z.of_nat k) by (apply Z.pow_le_mono_r; lia). lia. }
    destruct (size (String c r) <? 5) eqn:G2; [reflexivity|].
    rewrite str_leb_num; auto.
    + apply Z.leb_le. exact H4.
    + assert (E5 : size (String c r) = 5) by lia. unfold size in E5. simpl String.length at 2. lia.
Qed.
