(** C74 (encoding of policy files), C75 (clients of the daemon), and additions to C30,
    C33, C42, C47, C49, C57 *)
From Coq Require Import String Ascii List Bool Arith ZArith Lia.
From Verif Require Import Base FileSys Loader Admin SpecPolicy SpecRule SpecLoader SpecAdmin SpecUtf8 Utf8Proofs AdminProofs Props_Admin.
Import ListNotations.
Open Scope string_scope.
Open Scope list_scope.

(** * C74 *)

(** A file can be read as policy exactly if it is UTF-8; what is read is its content *)
Theorem C74_text f p c : read_text f p = Ok c <-> has_content f p c /\ utf8_text c.
Proof.
  unfold read_text, has_content. rewrite <- utf8_spec. destruct (fget f p) as [[[x|]| |]|].
  - destruct (utf8_valid x) eqn:U; split.
    + intros H. injection H as <-. auto.
    + intros [H _]. injection H as ->. reflexivity.
    + discriminate.
    + intros [H V]. injection H as ->. congruence.
  - split; [discriminate|]. intros [H _]. discriminate H.
  - split; [discriminate|]. intros [H _]. discriminate H.
  - split; [discriminate|]. intros [H _]. discriminate H.
  - split; [discriminate|]. intros [H _]. discriminate H.
Qed.
(** Nothing else is ever installed by the administration service *)
Theorem C74_installed sha f lg fu pp inc arg token data out f' : has_char NL token = false ->
  handle_admin sha f lg fu pp (replace_service inc) arg (token +++ nl +++ data) = (AOk out, f') -> utf8_text data.
Proof.
  intros Nt H. apply replace_ok in H as (t & d & _ & E & N & _ & _ & _ & U & _).
  apply nl_split_unique in E as [_ <-]; auto. apply utf8_spec. exact U.
Qed.
Example C74_texts : utf8_text "work" /\ utf8_text (String (ch 197) (String (ch 188) "")) /\
  ~ utf8_text (String (ch 192) (String (ch 128) "")) /\ ~ utf8_text (String (ch 237) (String (ch 160) (String (ch 128) ""))) /\
  ~ utf8_text (String (ch 244) (String (ch 144) (String (ch 128) (String (ch 128) "")))) /\ ~ utf8_text (String (ch 195) "").
Proof. repeat match goal with |- _ /\ _ => split end; rewrite <- utf8_spec; vm_compute; congruence. Qed.

(** * C30: which requests take an argument or a payload *)
Theorem C30_no_argument sha f lg fu pp inc arg payload out f' :
  handle_admin sha f lg fu pp (list_service inc) arg payload = (AOk out, f') -> arg = "" /\ payload = "".
Proof.
  intros H. apply handle_method in H as [(e & X & _)|(m & Hm & _ & A & B & _)]; [discriminate X|].
  rewrite methods_list in Hm. injection Hm as <-. split; [apply A|apply B]; reflexivity.
Qed.
Theorem C30_no_payload sha f lg fu pp inc service arg payload out f' :
  service = get_service inc \/ service = "policy.GetFiles" ->
  handle_admin sha f lg fu pp service arg payload = (AOk out, f') -> payload = "".
Proof.
  intros S H. apply handle_method in H as [(e & X & _)|(m & Hm & _ & A & B & _)]; [discriminate X|].
  destruct S as [-> | ->].
  - rewrite methods_get in Hm. injection Hm as <-. apply B. reflexivity.
  - injection Hm as <-. apply B. reflexivity.
Qed.
Theorem C30_unknown_service sha f lg fu pp service arg payload out f' :
  handle_admin sha f lg fu pp service arg payload = (AOk out, f') ->
  service = "policy.GetFiles" \/
  exists inc, service = list_service inc \/ service = get_service inc \/ service = replace_service inc \/ service = remove_service inc.
Proof.
  intros H. apply handle_method in H as [(e & X & _)|(m & Hm & _)]; [discriminate X|].
  apply methods_inv in Hm as [(inc & [[E _]|[[E _]|[[E _]|[E _]]]])|[E _]]; eauto 8.
Qed.

(** * C33: the list of files is given whenever it can be written as ASCII *)
Definition ascii_text (s : string) : Prop := forall c, has_char c s = true -> (nat_of_ascii c < 128)%nat.
Lemma sforall_has p s : sforall p s = true <-> forall c, has_char c s = true -> p c = true.
Proof.
  induction s as [|d s IH]; cbn [sforall has_char].
  - split; [discriminate|reflexivity].
  - rewrite andb_true_iff, IH. split.
    + intros [A B] c Hc. destruct (Ascii.eqb c d) eqn:E; [apply Ascii.eqb_eq in E; subst; exact A|]. apply B. destruct (Ascii.eqb d c); cbn in *; auto.
    + intros H. split; [apply H; rewrite Ascii.eqb_refl; reflexivity|]. intros c Hc. apply H. rewrite Hc. apply orb_true_r.
Qed.
Lemma lines_out_ascii l : is_ascii (lines_out l) = true <-> Forall ascii_text l.
Proof.
  unfold is_ascii. induction l as [|n l IH]; cbn [lines_out fold_right]; [split; [constructor|reflexivity]|].
  fold (lines_out l). rewrite !sforall_app, !andb_true_iff, IH. rewrite sforall_has. split.
  - intros (A & _ & B). constructor; [|exact B]. intros c Hc. apply A in Hc. apply Nat.leb_le in Hc. lia.
  - intros H. inversion H; subst. split; [|split; [reflexivity|assumption]]. intros c Hc. apply Nat.leb_le. match goal with X : ascii_text n |- _ => specialize (X c Hc) end. lia.
Qed.

Theorem C33_list_given sha f lg fu pp inc l : wf_fs f -> fget f pp = Some NDir ->
  listed f (list_dir pp inc) (list_suffix inc) l ->
  match handle_admin sha f lg fu pp (list_service inc) "" "" with
  | (AOk (Some out), f') => f' = f /\ Forall ascii_text l /\ out = fold_right (fun n s => n +++ nl +++ s) "" l
  | (AOk None, _) => False
  | (AErr _, f') => f' = f /\ ~ Forall ascii_text l
  end.
Proof.
  intros W D L. destruct (handle_admin sha f lg fu pp (list_service inc) "" "") as [r f'] eqn:E.
  unfold handle_admin in E. cbn [sforall negb] in E. rewrite methods_list in E. cbn [no_arg no_payload String.eqb negb andb] in E.
  unfold is_dir in E. rewrite D in E. cbn [negb run_method] in E. unfold common_list in E.
  change (target_dir pp inc) with (list_dir pp inc) in E. change (target_suffix inc) with (list_suffix inc) in E.
  destruct (list_names f (list_dir pp inc) (list_suffix inc)) as [ln|] eqn:El.
  - apply list_names_spec in El; [|exact W]. rewrite (listed_fun _ _ _ _ _ L El) in *. clear L.
    destruct (is_ascii (lines_out ln)) eqn:A; injection E as <- <-.
    + split; [reflexivity|]. split; [apply lines_out_ascii; exact A|reflexivity].
    + split; [reflexivity|]. rewrite <- lines_out_ascii. congruence.
  - exfalso. unfold list_names, iterdir in El. destruct L as (Dd & _). unfold is_dir in El. rewrite Dd in El. discriminate El.
Qed.
Example C33_list_run :
  let f := [(["etc"], NDir); (["etc"; "policy.d"], NDir); (["etc"; "policy.d"; "90-x.policy"], NFile (Some "")); (["etc"; "policy.d"; "30-y.policy"], NFile (Some ""))] in
  wf_fs f /\ fst (handle_admin (fun _ => "") f [] 9 ["etc"; "policy.d"] "policy.List" "" "") = AOk (Some ("30-y" +++ nl +++ "90-x" +++ nl)).
Proof. split; [|vm_compute; reflexivity]. unfold wf_fs. cbn. repeat constructor; cbn; intuition discriminate. Qed.

(** * C47: copying succeeds unless a read or a write fails *)
From Verif Require Io IoProofs.
Theorem C47_copy_succeeds chunk script src w : Io.copy_fd_all chunk script src = (Some false, w) ->
  exists r ws, In (r, ws) script /\
    (r = Io.RAgain \/ r = Io.RErr \/ exists o, In o ws /\ o <> Io.WIntr /\ forall k, o = Io.Wrote k -> k = O).
Proof.
  revert src w. induction script as [|[r ws] script IH]; intros src w H; cbn [Io.copy_fd_all] in H; [discriminate H|].
  destruct r as [k| | |].
  - destruct (Io.read_count k chunk src) as [|n] eqn:R; [discriminate H|].
    destruct (Io.write_all ws (firstn (S n) src)) as [[[|]|] w1] eqn:E; [|injection H as <-|discriminate H].
    + destruct (Io.copy_fd_all chunk script (skipn (S n) src)) as [r2 w2] eqn:E2. injection H as -> <-.
      destruct (IH _ _ E2) as (r & ws' & A & B). exists r, ws'. split; [now right|exact B].
    + destruct (IoProofs.write_all_spec _ _ _ _ E) as (_ & _ & F). destruct (F eq_refl) as (_ & o & A & B & C).
      exists (Io.Read k), ws. split; [now left|]. right. right. exists o. auto.
  - destruct (IH _ _ H) as (r & ws' & A & B). exists r, ws'. split; [now right|exact B].
  - exists Io.RAgain, ws. split; [now left|]. auto.
  - exists Io.RErr, ws. split; [now left|]. auto.
Qed.
Example C47_copy_run : Io.copy_fd_all 4 [(Io.Read 3, [Io.Wrote 1; Io.Wrote 9]); (Io.RIntr, []); (Io.Read 9, [Io.Wrote 9]); (Io.Read 1, [])] (list_ascii_of_string "abcde")
  = (Some true, list_ascii_of_string "abcde").
Proof. vm_compute. reflexivity. Qed.

(** * C52: a line that is not a call makes the process exit with status 125 *)
From Verif Require Exec SpecExec Props_Exec.
Theorem C52_refused_status program cmd envp sh :
  ~ (SpecExec.begins "/" program /\ ((exists f r, SpecExec.words cmd [f; r]) \/ exists f r ty t, SpecExec.words cmd [f; r; ty; t])) ->
  Exec.exec_qubes_rpc2 program cmd envp sh = Exec.ExecExit 125.
Proof.
  intros H. destruct (Exec.exec_qubes_rpc2 program cmd envp sh) as [p a e|n|] eqn:E.
  - exfalso. apply H. exact (Props_Exec.C52_nothing_else _ _ _ _ _ _ _ E).
  - f_equal. unfold Exec.exec_qubes_rpc2 in E.
    repeat match type of E with
    | (if ?b then _ else _) = _ => destruct b
    | match ?x with _ => _ end = _ => destruct x
    end; try discriminate E; injection E; auto.
  - exfalso. exact (Props_Exec.C52_no_abort _ _ _ _ E).
Qed.
Example C52_status_run : Exec.exec_qubes_rpc2 "/etc/qubes-rpc/a" "a+ work x" [] false = Exec.ExecExit 125 /\ Exec.exec_qubes_rpc2 "a" "a+ work" [] false = Exec.ExecExit 125 /\
  Exec.exec_qubes_rpc2 "/etc/qubes-rpc/a" "1 2 3 4 5 6 7 8 9 10" [] true = Exec.ExecExit 125.
Proof. vm_compute. auto. Qed.

(** and sending, unless a send fails *)
Theorem C47_send_succeeds script : forall iovs w, Io.sendmsg_all script iovs = (Some false, w) -> In Io.WErr script.
Proof.
  induction script as [|o script IH]; intros iovs w; cbn [Io.sendmsg_all]; [destruct iovs; discriminate|].
  destruct iovs as [|v iovs]; [discriminate|]. destruct o as [k| | |]; try (intros H; right; eapply IH; exact H).
  - cbv zeta. destruct (Io.sendmsg_all script _) as [r w'] eqn:E. intros H; injection H as -> _. right. eapply IH; exact E.
  - left. reflexivity.
Qed.
