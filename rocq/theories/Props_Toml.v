(** C67, C68: per-service configuration files. The vocabulary is in SpecToml. *)
From Coq Require Import String Ascii List Bool Arith ZArith Lia.
From Verif Require Import Base Exec SpecExec SpecLookup Toml SpecToml TomlProofs.
Import ListNotations.
Open Scope string_scope.
Open Scope list_scope.
Open Scope Z_scope.

(** C67: a configuration file is accepted exactly if it is in the format, and then the
    settings in effect are those it states; everything else keeps its default *)
Theorem C67_config_file content cf :
  qubes_toml_config_parse content no_config = Some cf <->
  exists es, config_file content es /\ in_effect es (to_settings cf).
Proof. apply parse_config_iff. Qed.
(** what a file states, and what is in effect, is determined by the file *)
Theorem C67_unambiguous content es es' s s' :
  config_file content es -> config_file content es' -> in_effect es s -> in_effect es' s' -> es = es' /\ s = s'.
Proof.
  intros C C' I I'. pose proof (config_file_fun _ _ _ C C') as <-. split; [reflexivity|].
  eapply in_effect_fun; eassumption.
Qed.
(** keys that are not known change nothing *)
Theorem C67_unknown_keys a b k v s :
  ~ In k known -> well_formed (a ++ (k, v) :: b) ->
  (in_effect (a ++ (k, v) :: b) s <-> in_effect (a ++ b) s).
Proof.
  intros N _.
  assert (X : forall k' v', In k' known -> (In (k', v') (a ++ (k, v) :: b) <-> In (k', v') (a ++ b))).
  { intros k' v' K. rewrite !in_app_iff. cbn [In]. split; [|tauto].
    intros [H|[H|H]]; auto. injection H as -> ->. contradiction. }
  assert (K1 : In "wait-for-session" known) by (now left).
  assert (K2 : In "exit-on-client-eof" known) by (right; now left).
  assert (K3 : In "exit-on-service-eof" known) by (do 2 right; now left).
  assert (K4 : In "skip-service-descriptor" known) by (do 3 right; now left).
  assert (K5 : In "force-user" known) by (do 4 right; now left).
  assert (X1 := fun v' => X _ v' K1). assert (X2 := fun v' => X _ v' K2). assert (X3 := fun v' => X _ v' K3).
  assert (X4 := fun v' => X _ v' K4). assert (X5 := fun v' => X _ v' K5). clear X.
  split; intros [A1 A2 A3 A4 A5]; constructor; intros.
  - rewrite A1, !X1. reflexivity.
  - rewrite A2, X5. reflexivity.
  - rewrite A3, X4. reflexivity.
  - rewrite A4, X3. reflexivity.
  - rewrite A5, X2. reflexivity.
  - rewrite A1, !X1. reflexivity.
  - rewrite A2, X5. reflexivity.
  - rewrite A3, X4. reflexivity.
  - rewrite A4, X3. reflexivity.
  - rewrite A5, X2. reflexivity.
Qed.
(** a line of blanks is not an empty line: a file that has one is refused *)
Lemma get_lines_cut p s cur :
  get_lines (p +++ String NL s) cur = get_lines (p +++ str1 NL) cur ++ get_lines s "".
Proof.
  revert cur. induction p as [|c p IH]; intros cur; cbn [String.append get_lines str1].
  - rewrite Ascii.eqb_refl. reflexivity.
  - destruct (Ascii.eqb c NL); [|apply IH]. rewrite IH. reflexivity.
Qed.
Theorem C67_blank_line_refused before b after es :
  before = "" \/ (exists p, before = p +++ str1 NL) -> blanks b -> b <> "" ->
  ~ config_file (before +++ b +++ str1 NL +++ after) es.
Proof.
  intros Hb B NE C. destruct C as [_ (ls & L & S & _)].
  assert (NB : lacks NL b) by (clear -B; induction B; [reflexivity| |]; unfold lacks in *; cbn [has_char]; now rewrite IHB).
  assert (NC : forall r, b <> r +++ str1 CR).
  { intros r ->. clear -B. induction r as [|c r IH]; cbn [String.append] in B.
    - apply blanks_inv in B as [B _]. discriminate.
    - apply blanks_inv in B as [_ B]. auto. }
  assert (I : In b ls).
  { apply file_lines_iff in L as ->. apply in_map_iff. exists (b, true).
    split; [unfold clean; cbn [fst snd]; now apply drop_cr_id|].
    destruct Hb as [-> | [p ->]].
    - cbn [String.append]. change (b +++ str1 NL +++ after) with (b +++ String NL after).
      rewrite get_lines_line by assumption. now left.
    - rewrite app_assoc_s. change (str1 NL +++ b +++ str1 NL +++ after) with (String NL (b +++ String NL after)).
      rewrite get_lines_cut, get_lines_line by assumption. apply in_app_iff. right. now left. }
  assert (X : forall r, ~ config_line b r).
  { intros r H. apply parse_line_complete in H as (x & P & H). destruct b as [|c b]; [congruence|].
    apply blanks_inv in B as [Sp _]. apply isspace_iff in Sp as [-> | ->]; cbn in P; subst x; exact H. }
  clear -S I X. induction S as [|l ls es C S IH|l ls e es C S IH]; [destruct I| |];
    (destruct I as [->|I]; [eapply X; eassumption|auto]).
Qed.

Definition example_config : string :=
  "# settings" +++ str1 CR +++ nl +++ "wait-for-session=1" +++ nl +++ nl +++
  "force-user = 'root'   # as root" +++ nl +++ "x.y-z = 42".
Example C67_example :
  qubes_toml_config_parse example_config no_config = Some (mkConfig true (Some "root") true false false).
Proof. vm_compute. reflexivity. Qed.
Example C67_refused :
  qubes_toml_config_parse ("wait-for-session=true" +++ nl +++ "wait-for-session=true") no_config = None /\
  qubes_toml_config_parse ("wait-for-session=2") no_config = None /\
  qubes_toml_config_parse ("force-user=""root""") no_config = None /\
  qubes_toml_config_parse ("exit-on-client-eof=1") no_config = None /\
  qubes_toml_config_parse ("[section]") no_config = None.
Proof. vm_compute. repeat split. Qed.

(** C68: the configuration of a call, and the user it runs as *)
Theorem C68_configuration fs contents path dirs full name username cf user :
  search_path path dirs -> fits dirs full -> fits dirs name ->
  (load_service_config_v2 fs contents path full name username = Some (cf, user) <->
   governed fs contents dirs full name username (to_settings cf) user).
Proof. apply load_config_iff. Qed.
(** a user is never forced together with a setting that needs the call to be handled
    directly: such a call is refused *)
Theorem C68_no_mix fs contents path full name username cf u :
  load_service_config_v2 fs contents path full name username = Some (cf, u) -> cf_user cf <> None ->
  u = cf_user cf /\ cf_send_service_descriptor cf = true /\
  cf_exit_on_stdin_eof cf = false /\ cf_exit_on_stdout_eof cf = false.
Proof.
  unfold load_service_config_v2. destruct (load_service_config_raw _ _ _ _ _) as [c|]; [|discriminate].
  destruct (cf_user c) as [x|] eqn:U; [|intros [= <- <-]; congruence].
  destruct (cf_send_service_descriptor c) eqn:D; [|discriminate].
  destruct (cf_exit_on_stdin_eof c) eqn:E1; [discriminate|].
  destruct (cf_exit_on_stdout_eof c) eqn:E2; [discriminate|].
  intros [= <- <-] _. rewrite U, D, E1, E2. auto.
Qed.
(** a file that cannot be read, or is not in the format, refuses the call *)
Theorem C68_bad_file_refused fs contents path dirs full name username p :
  search_path path dirs -> fits dirs full -> fits dirs name ->
  config_for fs dirs full name p ->
  (forall text es, contents p = Some text -> ~ config_file text es) ->
  load_service_config_v2 fs contents path full name username = None.
Proof.
  intros P F1 F2 C H. unfold load_service_config_v2, load_service_config_raw. unfold QUBES_SOCKADDR_UN_MAX_PATH_LEN.
  assert (X : match contents p with None => None | Some text => qubes_toml_config_parse text no_config end = None).
  { destruct (contents p) as [text|] eqn:T; [|reflexivity].
    destruct (qubes_toml_config_parse text no_config) as [cf|] eqn:Q; [|reflexivity].
    apply parse_config_iff in Q as (es & Q & _). now elim (H text es). }
  destruct C as [C|N C].
  - destruct (find_config_first _ _ _ _ _ P F1 C) as [k ->]. now rewrite X.
  - rewrite (find_config_nowhere _ _ _ _ P F1 N). destruct (find_config_first _ _ _ _ _ P F2 C) as [k ->]. now rewrite X.
Qed.

Definition example_fs (p : string) : lstat_result :=
  if String.eqb p "/etc/qubes/rpc-config/q.S" then LFound (KFile false) else LAbsent.
Example C68_example :
  load_service_config_v2 example_fs (fun _ => Some example_config) "/run/qubes/rpc-config:/etc/qubes/rpc-config"
    "q.S+a" "q.S" (Some "user") = Some (mkConfig true (Some "root") true false false, Some "root") /\
  search_path "/run/qubes/rpc-config:/etc/qubes/rpc-config" ["/run/qubes/rpc-config"; "/etc/qubes/rpc-config"] /\
  fits ["/run/qubes/rpc-config"; "/etc/qubes/rpc-config"] "q.S+a" /\
  fits ["/run/qubes/rpc-config"; "/etc/qubes/rpc-config"] "q.S".
Proof.
  split; [vm_compute; reflexivity|]. split; [split; [reflexivity|]|split].
  - intros d [<-|[<-|[]]]; split; [discriminate|reflexivity|discriminate|reflexivity].
  - intros d [<-|[<-|[]]]; vm_compute; reflexivity.
  - intros d [<-|[<-|[]]]; vm_compute; reflexivity.
Qed.

Print Assumptions C67_config_file.
Print Assumptions C67_blank_line_refused.
Print Assumptions C68_configuration.
Print Assumptions C68_bad_file_refused.
