(** Proofs about policy administration. *)
From Coq Require Import String Ascii List Bool Arith Lia Permutation Sorting.
From Verif Require Import Base SysInfo Token Rule Policy FileSys Loader Admin
  SpecPolicy SpecRule SpecLoader SpecAdmin
  TokenProofs RuleProofs TextProofs LoaderProofs SelectProofs LoaderExt.
Import ListNotations.
Open Scope string_scope.
Open Scope list_scope.

(** ** File system updates *)
Lemma fget_fset f p n : fget (fset f p n) p = Some n.
Proof.
  induction f as [|[q m] f IH]; cbn; [rewrite path_eqb_refl; auto|].
  destruct (path_eqb p q) eqn:E; cbn; [rewrite path_eqb_refl|rewrite E]; auto.
Qed.
Lemma fget_fset_other f p n x : x <> p -> fget (fset f p n) x = fget f x.
Proof.
  intros Hx. induction f as [|[q m] f IH]; cbn.
  - destruct (path_eqb_spec x p); [contradiction|reflexivity].
  - destruct (path_eqb_spec p q) as [->|Hq]; cbn.
    + destruct (path_eqb_spec x q); [contradiction|reflexivity].
    + rewrite IH. reflexivity.
Qed.
Lemma fget_fdel f p : fget (fdel f p) p = None.
Proof.
  induction f as [|[q m] f IH]; cbn; auto. destruct (path_eqb p q) eqn:E; auto. cbn. rewrite E. auto.
Qed.
Lemma fget_fdel_other f p x : x <> p -> fget (fdel f p) x = fget f x.
Proof.
  intros Hx. induction f as [|[q m] f IH]; cbn; auto.
  destruct (path_eqb_spec p q) as [->|Hq]; cbn.
  - destruct (path_eqb_spec x q); [contradiction|auto].
  - rewrite IH. reflexivity.
Qed.
Lemma fset_keys f p n : In p (map fst f) -> map fst (fset f p n) = map fst f.
Proof.
  induction f as [|[q m] f IH]; cbn; [intros []|]. intros [->|H].
  - rewrite path_eqb_refl. reflexivity.
  - destruct (path_eqb_spec p q) as [->|]; cbn; [reflexivity|]. rewrite IH; auto.
Qed.
Lemma wf_fset f p n : wf_fs f -> wf_fs (fset f p n).
Proof.
  unfold wf_fs. induction f as [|[q m] f IH]; cbn; intros N.
  - constructor; [simpl; tauto|constructor].
  - destruct (path_eqb_spec p q) as [->|Hq]; cbn; auto.
    inv N. constructor; auto. intros H. apply H1.
    apply fget_In. rewrite <- (fget_fset_other f p n); [|auto]. apply fget_In. exact H.
Qed.
Lemma wf_fdel f p : wf_fs f -> wf_fs (fdel f p).
Proof.
  unfold wf_fs. induction f as [|[q m] f IH]; cbn; intros N; [constructor|]. inv N.
  destruct (path_eqb_spec p q) as [->|Hq]; cbn; auto.
  constructor; auto. intros H. apply H1. apply fget_In. rewrite <- (fget_fdel_other f p); [|auto]. apply fget_In. exact H.
Qed.

(** ** Names and paths *)
Lemma word_char_spec c : word_char c = true <-> name_letter c.
Proof.
  unfold word_char, name_letter, is_digit, is_lower, is_upper, in_range, is_char.
  rewrite !orb_true_iff, !andb_true_iff, !Nat.leb_le, !Ascii.eqb_eq. cbn [In].
  split; [intuition (subst; auto)|]. intros [[H|[H|H]]|[H|[H|[]]]]; subst; auto; tauto.
Qed.
Lemma admin_name_spec s : String.eqb s "" || negb (sforall word_char s) = false <-> admin_name s.
Proof.
  rewrite orb_false_iff, negb_false_iff, sforall_has. unfold admin_name.
  split; intros [H1 H2]; split.
  - apply String.eqb_neq. exact H1.
  - intros c Hc. apply word_char_spec. auto.
  - apply String.eqb_neq. exact H1.
  - intros c Hc. apply word_char_spec. auto.
Qed.
Lemma admin_name_no c s : admin_name s -> word_char c = false -> has_char c s = false.
Proof.
  intros [_ H] Hc. destruct (has_char c s) eqn:E; auto. apply H, word_char_spec in E. congruence.
Qed.
Lemma normalise_app a b acc : normalise acc (a ++ b) = normalise (normalise acc a) b.
Proof. revert acc. induction a as [|c a IH]; cbn; intros acc; auto. destruct (String.eqb c ".."); apply IH. Qed.

Lemma path_parts_one s : has_char "/" s = false -> s <> "" -> s <> "." -> path_parts s = [s].
Proof.
  intros H H1 H2. unfold path_parts. rewrite split_all_single; auto. cbn [filter].
  destruct (String.eqb_spec s ""); [contradiction|]. destruct (String.eqb_spec s "."); [contradiction|]. reflexivity.
Qed.
Lemma app_eq_last s t c : has_char c s = false -> s <> "" -> s +++ t <> str1 c.
Proof.
  intros H Hs E. destruct s as [|x s]; [congruence|]. cbn in E. inv E. cbn in H. rewrite Ascii.eqb_refl in H. discriminate.
Qed.
Lemma get_path_ok arg dir suff p : suff = "" \/ suff = ".policy" ->
  get_path arg dir suff = inl p -> admin_name arg /\ p = dir ++ [arg +++ suff].
Proof.
  intros Hs. unfold get_path. destruct (String.eqb arg "" || negb (sforall word_char arg)) eqn:E; [discriminate|].
  apply admin_name_spec in E. intros H. split; auto.
  assert (Ne : arg +++ suff <> "") by (destruct E as [E _]; destruct arg; cbn; congruence).
  assert (Nd : arg +++ suff <> ".").
  { apply (app_eq_last arg suff "."); [eapply admin_name_no; eauto|apply E]. }
  assert (Nd2 : arg +++ suff <> "..").
  { pose proof (admin_name_no "." arg E eq_refl) as Hn. destruct E as [E _]. destruct arg as [|x s]; [congruence|].
    intros K. cbn in K. inv K. cbn in Hn. discriminate. }
  assert (Sl : has_char "/" (arg +++ suff) = false).
  { rewrite has_char_app, (admin_name_no "/" arg E eq_refl). destruct Hs; subst; reflexivity. }
  assert (Ab : path_abs (arg +++ suff) = false).
  { unfold path_abs. destruct (arg +++ suff) as [|x s] eqn:K; auto. cbn in Sl |- *. destruct (Ascii.eqb "/" x); auto. }
  unfold resolve in H. rewrite Ab, path_parts_one, normalise_app in H; auto. cbn [normalise] in H.
  destruct (String.eqb_spec (arg +++ suff) ".."); [contradiction|]. rewrite split_last_app in H.
  destruct (path_eqb_spec (normalise [] dir) dir) as [K|]; [|discriminate]. rewrite K in H. inv H. reflexivity.
Qed.
Lemma with_path_ok inc pp arg p :
  get_path arg (target_dir pp inc) (target_suffix inc) = inl p -> admin_name arg /\ p = admin_file pp inc arg.
Proof.
  intros H. apply get_path_ok in H as [H ->]; [|destruct inc; auto]. split; auto.
  destruct inc; cbn; [rewrite app_nil_s, <- app_assoc|]; reflexivity.
Qed.
Lemma temp_path_spec inc pp arg : temp_path (admin_file pp inc arg) = admin_temp pp inc arg.
Proof.
  unfold temp_path, admin_file, admin_temp. destruct inc.
  - change (pp ++ ["include"; arg]) with (pp ++ ["include"] ++ [arg]). rewrite app_assoc, split_last_app, <- app_assoc. reflexivity.
  - rewrite split_last_app. reflexivity.
Qed.
Lemma temp_neq inc pp arg : admin_temp pp inc arg <> admin_file pp inc arg.
Proof.
  unfold admin_file, admin_temp. destruct inc; intros H; apply app_inv_head in H.
  - assert (E : "!" +++ arg = arg) by congruence.
    apply (f_equal String.length) in E. cbn in E. lia.
  - assert (E : "!" +++ arg +++ ".policy" = arg +++ ".policy") by congruence.
    apply (f_equal String.length) in E. cbn in E. lia.
Qed.

(** ** Tokens *)
Lemma read_bytes_spec f p c : read_bytes f p = Ok c <-> has_content f p c.
Proof.
  unfold read_bytes, has_content. destruct (fget f p) as [[[x|]| |]|]; split; intros H; inv H; auto.
Qed.
Lemma check_token_spec sha f t p : check_token sha f t p = None <-> token_holds sha f p t.
Proof.
  unfold check_token, exists_path. split.
  - destruct (String.eqb_spec t "any") as [->|]; [constructor|].
    destruct (String.eqb_spec t "new") as [->|].
    { destruct (fget f p) eqn:E; [discriminate|]. intros _. constructor. exact E. }
    destruct (starts "sha256:" t) eqn:Es; [|discriminate]. cbn [negb].
    destruct (fget f p) eqn:E; [|discriminate]. cbn [negb].
    destruct (read_bytes f p) as [c|] eqn:Er; [|discriminate].
    unfold compute_token. destruct (String.eqb_spec ("sha256:" +++ sha c) t) as [<-|]; [|discriminate].
    intros _. constructor. apply read_bytes_spec. exact Er.
  - intros H. destruct H as [|H|c H].
    + reflexivity.
    + cbn. rewrite H. reflexivity.
    + rewrite starts_app. cbn [negb].
      destruct (String.eqb_spec ("sha256:" +++ sha c) "any") as [E|_]; [discriminate|].
      destruct (String.eqb_spec ("sha256:" +++ sha c) "new") as [E|_]; [discriminate|].
      pose proof H as H'. apply read_bytes_spec in H'. rewrite H'. unfold has_content in H. rewrite H. cbn [negb].
      unfold compute_token. rewrite eqb_refl_s. reflexivity.
Qed.

(** ** Requests *)
Lemma handle_method sha f lg fu pp service arg payload r f' :
  handle_admin sha f lg fu pp service arg payload = (r, f') ->
  (exists e, r = AErr e /\ f' = f) \/
  exists m, dget methods service = Some m /\ sforall rpcname_char arg = true /\
    (no_arg m = true -> arg = "") /\ (no_payload m = true -> payload = "") /\ fget f pp = Some NDir /\
    run_method sha f lg fu pp m arg payload = (r, f').
Proof.
  unfold handle_admin. destruct (sforall rpcname_char arg) eqn:E1; cbn [negb]; [|intros H; inv H; eauto].
  destruct (dget methods service) as [m|]; [|intros H; inv H; eauto].
  destruct (no_arg m && negb (String.eqb arg "")) eqn:E2; [intros H; inv H; eauto|].
  destruct (no_payload m && negb (String.eqb payload "")) eqn:E3; [intros H; inv H; eauto|].
  destruct (is_dir f pp) eqn:E4; cbn [negb]; [|intros H; inv H; eauto].
  intros H. right. exists m. repeat (split; auto).
  - intros Hn. rewrite Hn in E2. cbn in E2. apply negb_false_iff, String.eqb_eq in E2. exact E2.
  - intros Hn. rewrite Hn in E3. cbn in E3. apply negb_false_iff, String.eqb_eq in E3. exact E3.
  - apply is_dir_spec. exact E4.
Qed.

(** the effect of a successful Replace *)
Record replaced (f f' : fs) (p tmp : path) (data : string) : Prop := {
  rd_new : has_content f' p data;
  rd_temp : fget f' tmp = None;
  rd_rest : same_elsewhere f f' [p; tmp]
}.
Lemma replace_outcome sha f lg fu pp inc arg payload r f' :
  common_replace sha f lg fu pp (admin_file pp inc arg) payload = (r, f') ->
  let p := admin_file pp inc arg in let tmp := admin_temp pp inc arg in
  (exists e, r = AErr e /\ f' = f) \/
  (exists e token data, r = AErr e /\ f' = fset f tmp (NFile (Some data)) /\ payload = token +++ nl +++ data /\
     fget f p = Some NDir) \/
  (exists token data, r = AOk None /\ payload = token +++ nl +++ data /\ has_char NL token = false /\
     token_holds sha f p token /\
     utf8_valid data = true /\ validate_change f lg fu pp p (Some data) = None /\
     f' = fset (fdel (fset f tmp (NFile (Some data))) tmp) p (NFile (Some data)) /\
     fget f p <> Some NDir /\ (fget f tmp = None \/ regular f tmp)).
Proof.
  intros H p tmp. unfold common_replace in H. fold p in H.
  destruct (split1 NL payload) as [[token data]|] eqn:Ep; [|inv H; eauto].
  apply split1_spec in Ep as [Ep Nt].
  destruct (check_token sha f token p) eqn:Et; [inv H; eauto|]. apply check_token_spec in Et.
  destruct (utf8_valid data) eqn:Eu; cbn [negb] in H; [|inv H; eauto].
  destruct (validate_change f lg fu pp p (Some data)) eqn:Ev; [inv H; eauto|].
  assert (Etmp : temp_path p = tmp) by apply temp_path_spec. rewrite Etmp in H.
  assert (Np : tmp <> p) by apply temp_neq.
  unfold write_bytes in H. destruct (split_last tmp) as [[d n]|]; [|inv H; eauto].
  destruct (is_dir f d && (negb (exists_path f tmp) || is_file f tmp)) eqn:Ew; [|inv H; eauto].
  apply andb_prop in Ew as [_ Ew].
  unfold frename in H. rewrite fget_fset in H.
  destruct (is_dir (fset f tmp (NFile (Some data))) p) eqn:Ed.
  - right. left. apply is_dir_spec in Ed. rewrite fget_fset_other in Ed by auto. inv H. eexists _, _, _. eauto.
  - right. right. inv H. eexists _, _. repeat (split; eauto).
    + intros K. rewrite <- (fget_fset_other f tmp (NFile (Some data))) in K by auto. apply is_dir_spec in K. congruence.
    + unfold exists_path, is_file in Ew. unfold regular. destruct (fget f tmp) as [[]|]; eauto; discriminate.
Qed.
Lemma replaced_effect f p tmp data : tmp <> p ->
  replaced f (fset (fdel (fset f tmp (NFile (Some data))) tmp) p (NFile (Some data))) p tmp data.
Proof.
  intros N. constructor.
  - apply fget_fset.
  - rewrite fget_fset_other by auto. apply fget_fdel.
  - intros q Hq. cbn in Hq. rewrite fget_fset_other, fget_fdel_other, fget_fset_other; auto.
Qed.
Lemma remove_outcome sha f lg fu pp p payload r f' :
  common_remove sha f lg fu pp p payload = (r, f') ->
  (exists e, r = AErr e /\ f' = f) \/
  (r = AOk None /\ f' = fdel f p /\ token_holds sha f p payload /\ regular f p /\
   validate_change f lg fu pp p None = None).
Proof.
  unfold common_remove. destruct (check_token sha f payload p) eqn:Et; [intros H; inv H; eauto|].
  apply check_token_spec in Et. destruct (is_file f p) eqn:Ef; cbn [negb]; [|intros H; inv H; eauto].
  destruct (validate_change f lg fu pp p None) eqn:Ev; intros H; inv H; eauto.
  right. repeat (split; auto). apply is_file_spec. exact Ef.
Qed.
Lemma methods_replace inc : dget methods (replace_service inc) = Some (MReplace inc).
Proof. destruct inc; reflexivity. Qed.
Lemma methods_remove inc : dget methods (remove_service inc) = Some (MRemove inc).
Proof. destruct inc; reflexivity. Qed.
Lemma methods_get inc : dget methods (get_service inc) = Some (MGet inc).
Proof. destruct inc; reflexivity. Qed.
Lemma methods_list inc : dget methods (list_service inc) = Some (MList inc).
Proof. destruct inc; reflexivity. Qed.
Lemma methods_inv service m : dget methods service = Some m ->
  (exists inc, (service = list_service inc /\ m = MList inc) \/ (service = get_service inc /\ m = MGet inc) \/
     (service = replace_service inc /\ m = MReplace inc) \/ (service = remove_service inc /\ m = MRemove inc)) \/
  (service = "policy.GetFiles" /\ m = MGetFiles).
Proof.
  intros H. apply dget_In in H. cbn in H.
  repeat destruct H as [H|H]; try contradiction; inv H; auto; left;
    first [exists false; tauto|exists true; tauto].
Qed.

(** every request: outcome and effect *)
Inductive effect (sha : string -> string) (f : fs) (pp : path) : string -> string -> string -> aresult -> fs -> Prop :=
| ef_none service arg payload r : effect sha f pp service arg payload r f
| ef_replace inc arg token data f' : admin_name arg -> token_holds sha f (admin_file pp inc arg) token ->
    utf8_valid data = true ->
    replaced f f' (admin_file pp inc arg) (admin_temp pp inc arg) data ->
    effect sha f pp (replace_service inc) arg (token +++ nl +++ data) (AOk None) f'
| ef_stuck inc arg token data e : admin_name arg -> fget f (admin_file pp inc arg) = Some NDir ->
    effect sha f pp (replace_service inc) arg (token +++ nl +++ data) (AErr e)
      (fset f (admin_temp pp inc arg) (NFile (Some data)))
| ef_remove inc arg token : admin_name arg -> token_holds sha f (admin_file pp inc arg) token ->
    regular f (admin_file pp inc arg) ->
    effect sha f pp (remove_service inc) arg token (AOk None) (fdel f (admin_file pp inc arg)).

Lemma common_list_same f d s r f' : common_list f d s = (r, f') -> f' = f.
Proof.
  unfold common_list. destruct (list_names f d s) as [l|]; [|intros H; inv H; auto].
  destruct (is_ascii (lines_out l)); intros H; inv H; auto.
Qed.
Lemma common_get_same sha f p r f' : common_get sha f p = (r, f') -> f' = f.
Proof.
  unfold common_get. destruct (negb (is_file f p)); [intros H; inv H; auto|].
  destruct (read_bytes f p); intros H; inv H; auto.
Qed.
Lemma get_files_same f lg fu pp arg r f' : get_files f lg fu pp arg = (r, f') -> f' = f.
Proof.
  unfold get_files. destruct (String.eqb arg ""); [intros H; inv H; auto|].
  destruct (negb (valid_chars_no_plus arg)); [intros H; inv H; auto|].
  destruct (load_policy f lg fu [pp]); intros H; inv H; auto.
Qed.

Theorem request_effect sha f lg fu pp service arg payload r f' :
  handle_admin sha f lg fu pp service arg payload = (r, f') ->
  effect sha f pp service arg payload r f'.
Proof.
  intros H. apply handle_method in H as [(e&->&->)|(m&Hm&_&_&_&_&H)]; [constructor|].
  apply methods_inv in Hm as [(inc&[[-> ->]|[[-> ->]|[[-> ->]|[-> ->]]]])|[-> ->]]; cbn [run_method] in H.
  - apply common_list_same in H. subst. constructor.
  - unfold with_path in H. destruct (get_path _ _ _); [|inv H; constructor].
    apply common_get_same in H. subst. constructor.
  - unfold with_path in H. destruct (get_path _ _ _) as [p|] eqn:Eg; [|inv H; constructor].
    apply with_path_ok in Eg as [Hn ->].
    apply replace_outcome in H as [(e&->&->)|[(e&t&d&->&->&->&K)|(t&d&->&->&N&T&U&V&->&_)]].
    + constructor.
    + apply ef_stuck; auto.
    + apply ef_replace; auto. apply replaced_effect, temp_neq.
  - unfold with_path in H. destruct (get_path _ _ _) as [p|] eqn:Eg; [|inv H; constructor].
    apply with_path_ok in Eg as [Hn ->].
    apply remove_outcome in H as [(e&->&->)|(->&->&T&R&V)]; [constructor|]. apply ef_remove; auto.
  - apply get_files_same in H. subst. constructor.
Qed.
