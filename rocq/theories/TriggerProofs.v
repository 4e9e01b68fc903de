(** Proofs about calls of local clients and about the fork server *)
From Coq Require Import String Ascii List Bool Arith ZArith Lia.
From Verif Require Import Base Sanitize DaemonAgent SpecDaemon SpecAgent AgentProofs Exec Toml TomlProofs Agent SpecMain MainProofs.
Import ListNotations.
Open Scope string_scope.
Open Scope list_scope.
Open Scope Z_scope.

(** ** Descriptors as text *)
Lemma digit_value n : (n < 10)%nat -> Z.of_nat (nat_of_ascii (decimal_digit n)) - 48 = Z.of_nat n /\ digit (decimal_digit n) = true.
Proof. intros H. do 10 (destruct n as [|n]; [split; reflexivity|]). lia. Qed.
Lemma digits_value_app a b acc : digits_value (a +++ b) acc = digits_value b (digits_value a acc).
Proof. revert acc. induction a as [|c a IH]; intros acc; [reflexivity|]. cbn [digits_value String.append]. apply IH. Qed.
Lemma sforall_app p a b : sforall p (a +++ b) = (sforall p a && sforall p b)%bool.
Proof. induction a as [|c a IH]; [reflexivity|]. cbn [sforall String.append]. rewrite IH. destruct (p c); reflexivity. Qed.

Lemma print_nat_value fuel : forall n, (n < fuel)%nat ->
  digits_value (print_nat fuel n) 0 = Z.of_nat n /\ sforall digit (print_nat fuel n) = true /\ print_nat fuel n <> "".
Proof.
  induction fuel as [|fuel IH]; intros n H; [lia|]. cbn [print_nat].
  destruct (n <? 10)%nat eqn:E.
  - apply Nat.ltb_lt in E. destruct (digit_value n E) as [V D]. unfold str1. cbn [digits_value sforall].
    rewrite D. split; [|split; [reflexivity|discriminate]]. rewrite Z.mul_0_r, Z.add_0_l. exact V.
  - apply Nat.ltb_ge in E. assert (Q : (n / 10 < fuel)%nat).
    { apply Nat.div_lt_upper_bound; lia. }
    assert (M : (n mod 10 < 10)%nat) by (apply Nat.mod_upper_bound; lia).
    destruct (IH _ Q) as (V & S & N). destruct (digit_value _ M) as [V' D].
    rewrite digits_value_app, sforall_app, V, S. unfold str1. cbn [digits_value sforall]. rewrite D.
    split; [|split; [reflexivity|]].
    + rewrite V'. pose proof (Nat.div_mod n 10). lia.
    + destruct (print_nat fuel (n / 10)); [congruence|discriminate].
Qed.
Lemma print_nat_length fuel : forall k n, (1 <= k)%nat -> Z.of_nat n < 10 ^ Z.of_nat k ->
  (String.length (print_nat fuel n) <= k)%nat.
Proof.
  induction fuel as [|fuel IH]; intros k n Hk H; cbn [print_nat]; [cbn; lia|].
  destruct (n <? 10)%nat eqn:E; [cbn; lia|].
  apply Nat.ltb_ge in E. destruct k as [|[|k]]; [lia|cbn in H; lia|].
  rewrite length_app_s. specialize (IH (S k) (n / 10)%nat).
  assert (Z.of_nat (n / 10) < 10 ^ Z.of_nat (S k)).
  { rewrite Nat2Z.inj_div. apply Z.div_lt_upper_bound; [lia|]. rewrite <- Z.pow_succ_r by lia.
    rewrite <- Nat2Z.inj_succ. exact H. }
  specialize (IH ltac:(lia) H0). cbn [str1 String.length]. lia.
Qed.

Definition small (fd : nat) : Prop := Z.of_nat fd < 2147483648.
Lemma ident_length fd : small fd -> (String.length (socket_ident fd) <= 16)%nat.
Proof.
  intros H. unfold socket_ident. rewrite length_app_s. pose proof (print_nat_length (S fd) 10 fd).
  assert (Z.of_nat fd < 10 ^ Z.of_nat 10) by (unfold small in H; change (10 ^ Z.of_nat 10) with 10000000000; lia).
  specialize (H0 ltac:(lia) H1). change (String.length "SOCKET") with 6%nat. lia.
Qed.
Lemma digit_cases c : digit c = true -> c_space c = false /\ Ascii.eqb c "-" = false /\ Ascii.eqb c "+" = false /\ Ascii.eqb c NUL = false.
Proof. destruct c as [[] [] [] [] [] [] [] []]; try discriminate; repeat split; reflexivity. Qed.
Lemma scan_digits_all s : s <> "" -> sforall digit s = true -> scan_digits s = Scanned (digits_value s 0).
Proof.
  intros N S. destruct s as [|c s]; [congruence|]. unfold scan_digits.
  pose proof (span_app digit (String c s) "" S I) as P. rewrite app_nil_s in P. rewrite P.
  cbn [sforall] in S. destruct (digit c); [reflexivity|discriminate].
Qed.
Lemma scan_ident fd : scan_socket (socket_ident fd) = Scanned (Z.of_nat fd).
Proof.
  unfold scan_socket, socket_ident. destruct (print_nat_value (S fd) fd ltac:(lia)) as (V & S & N).
  remember (print_nat _ _) as s. cbn [String.append scan_lit Ascii.eqb Bool.eqb]. unfold scan_int.
  destruct s as [|c s]; [congruence|]. pose proof S as S'. cbn [sforall] in S'.
  destruct (digit c) eqn:D; [|discriminate].
  destruct (digit_cases c D) as (D1 & D2 & D3 & _). cbn [skip_c_space]. rewrite D1.
  rewrite <- V, <- (scan_digits_all _ N S).
  clear - D2 D3. destruct c as [[] [] [] [] [] [] [] []]; try reflexivity; discriminate.
Qed.
Lemma digits_no_nul s : sforall digit s = true -> has_char NUL s = false.
Proof.
  induction s as [|c s IH]; [reflexivity|]. cbn [sforall has_char]. destruct (digit c) eqn:D; [|discriminate].
  intros H. destruct (digit_cases c D) as (_ & _ & _ & E). rewrite (IH H), Ascii.eqb_sym, E. reflexivity.
Qed.
Lemma ident_no_nul fd : has_char NUL (socket_ident fd) = false.
Proof.
  unfold socket_ident. destruct (print_nat_value (S fd) fd ltac:(lia)) as (_ & S & _). remember (print_nat _ _) as s.
  cbn [String.append has_char]. rewrite (digits_no_nul _ S). reflexivity.
Qed.

(** the identifier field of a call of a local client *)
Lemma ident_field fd params : small fd -> (160 <= String.length params)%nat ->
  cstr (stake 32 (sdrop 128 (write_ident fd params))) = socket_ident fd /\
  String.length (write_ident fd params) = String.length params.
Proof.
  intros Sm L. pose proof (ident_length fd Sm) as IL. unfold write_ident.
  remember (socket_ident fd) as i. cbv zeta.
  assert (LI : String.length (i +++ str1 NUL) = S (String.length i)) by (rewrite length_app_s; cbn; lia).
  split.
  - rewrite (sdrop_app_eq (stake 128 params)) by (apply stake_exact; lia).
    replace 32%nat with (String.length (i +++ str1 NUL) + (31 - String.length i))%nat by (rewrite LI; lia).
    assert (T : forall a b n, stake (String.length a + n) (a +++ b) = a +++ stake n b).
    { intros a b n. induction a as [|c a IH]; [reflexivity|]. cbn [String.length String.append Nat.add stake]. now rewrite IH. }
    rewrite T, app_assoc_s. rewrite cstr_app by (subst i; apply ident_no_nul). cbn [str1 String.append]. rewrite cstr_nul. apply app_nil_s.
  - rewrite !length_app_s, sdrop_length, stake_exact by lia. cbn [str1 String.length]. lia.
Qed.

(** ** The fork server *)
Lemma fork_server_same u text c : has_char NUL text = false -> has_char ":" u = false -> zlen text + 1 <= 2147483647 ->
  parse_qubes_rpc_command (u +++ ":" +++ text) true = Some c ->
  pc_username c = Some u /\
  fork_server_command (zlen text + 1) (text +++ str1 NUL) =
    Some (mkCmd None (pc_command c) (pc_nogui c) (pc_descriptor c) (pc_name c) (pc_arg c) (pc_source c)).
Proof.
  intros Nt Nu Lt. unfold fork_server_command.
  assert (Z0 : zlen text >= 0) by (unfold zlen; lia).
  assert (C1 : ((zlen text + 1 <? 1) || (zlen text + 1 >? 2147483647))%bool = false) by lia. rewrite C1.
  assert (ZL : zlen (text +++ str1 NUL) = zlen text + 1) by (unfold zlen; rewrite length_app_s; cbn [str1 String.length]; lia).
  rewrite ZL, Z.ltb_irrefl.
  assert (N1 : Z.to_nat (zlen text + 1) = S (String.length text)) by (unfold zlen; lia).
  rewrite N1. replace (zlen text + 1 - 1) with (zlen text) by lia.
  assert (N2 : Z.to_nat (zlen text) = String.length text) by (unfold zlen; lia). rewrite N2.
  assert (T : stake (S (String.length text)) (text +++ str1 NUL) = text +++ str1 NUL).
  { pose proof (stake_app_eq (text +++ str1 NUL) "" (S (String.length text))) as X. rewrite app_nil_s in X. apply X.
    rewrite length_app_s. cbn [str1 String.length]. lia. }
  rewrite T, (sdrop_app_eq text (str1 NUL)) by reflexivity. rewrite String.eqb_refl. cbn [negb].
  assert (Cs : cstr (text +++ str1 NUL) = text) by (rewrite cstr_app by exact Nt; unfold str1; rewrite cstr_nul; apply app_nil_s).
  rewrite Cs, Z.eqb_refl. cbn [negb].
  unfold parse_qubes_rpc_command.
  assert (Sp : split1 ":" (u +++ ":" +++ text) = Some (u, text)) by (apply split1_spec; split; [reflexivity|exact Nu]).
  rewrite Sp. destruct (starts "QUBESRPC" _).
  - destruct (negb _); [discriminate|]. destruct (parse_call _) as [[[[d n] a] s]|]; [|discriminate].
    intros H. injection H as <-. split; reflexivity.
  - intros H. injection H as <-. split; reflexivity.
Qed.
Lemma has_char_app_false c a b : has_char c (a +++ b) = false -> has_char c b = false.
Proof. induction a as [|x a IH]; [auto|]. cbn [String.append has_char]. intros H. apply orb_false_iff in H as [_ H]. auto. Qed.
