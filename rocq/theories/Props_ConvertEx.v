(** Conversions: examples, and rules that do not survive. *)
From Coq Require Import String Ascii List Bool Arith Lia.
From Verif Require Import Base SysInfo Token Rule Policy FileSys Loader LineLoader LoadAll Graph Convert SpecConvert ConvertText RulePrint Props_Policy Props_Loader Props_Convert.
Import ListNotations.
Open Scope string_scope.
Open Scope list_scope.

Definition old (n : string) (l : list string) : path * node := (POLICYPATH_OLD ++ [n], L l).
Definition base : fs := [
  (["etc"], NDir); (["etc"; "qubes"], NDir); (POLICYPATH, NDir); (["etc"; "qubes-rpc"], NDir); (POLICYPATH_OLD, NDir);
  (POLICYPATH ++ ["35-compat.policy"], L ["!compat-4.0"]);
  (POLICYPATH ++ ["90-default.policy"], L ["qubes.Filecopy * @anyvm @anyvm ask"; "* * @anyvm @anyvm deny"; "* * @anyvm @adminvm deny"])].
Definition col (s : string) := "#cc0000".
Definition run (yes : bool) (services : list (option string)) (f : fs) : outcome * fs :=
  let (ops, o) := convert ex_info col 9 services yes f in (o, fold_left apply_op ops f).
(** what the policy in a file system says of a call *)
Definition decision (f : fs) (q : request) : res resolution :=
  match load_policy f POLICYPATH_OLD 9 [POLICYPATH] with Ok rs => evaluate rs q | Err e => Err e end.
Definition all_of (f : fs) : list nrule := match nload_policy f POLICYPATH_OLD (ncompat f POLICYPATH_OLD) 9 [POLICYPATH] with Ok l => l | _ => [] end.
Definition new_of (f : fs) : list nrule := match nload_policy f POLICYPATH_OLD no_compat 9 [POLICYPATH] with Ok l => l | _ => [] end.

(** *** An example: two services, a backup, a rule that is there already, a rule after a denial *)
Definition ex_conv : fs := base ++ [
  (POLICYPATH ++ ["30-user.policy"], L ["svc * vault work deny"; "other * vault work allow"]);
  old "svc" ["vault work deny"; "work vault allow,target=vault,user=root"; "$anyvm $anyvm deny"; "$anyvm dom0 allow"];
  old "qubes.InputKeyboard" ["sys-net dom0 allow"; "sys-net dom0 ask"]].
Definition ex_services := [Some "svc"; Some "qubes.InputKeyboard"].
Example C55_example_loads :
  nload_policy ex_conv POLICYPATH_OLD (ncompat ex_conv POLICYPATH_OLD) 9 [POLICYPATH] = Ok (all_of ex_conv) /\
  nload_policy ex_conv POLICYPATH_OLD no_compat 9 [POLICYPATH] = Ok (new_of ex_conv) /\ length (all_of ex_conv) = 11 /\ length (new_of ex_conv) = 5.
Proof. vm_compute. auto. Qed.
Lemma filtered_services (all new : list nrule) l : nodup service_dec (map (fun r => r_service (fst r)) (legacy_rules all new)) = l -> services_of all new l.
Proof.
  intros <-. split; [apply NoDup_nodup|]. intros sv. rewrite nodup_In, in_map_iff. split.
  - intros (r & E & H). exists r. split; [apply ConvertProofs.legacy_spec; exact H|exact E].
  - intros (r & H & E). exists r. split; [exact E|apply ConvertProofs.legacy_spec; exact H].
Qed.
Example C55_example_services : services_of (all_of ex_conv) (new_of ex_conv) [Some "qubes.InputKeyboard"; Some "svc"].
Proof. apply filtered_services. vm_compute. reflexivity. Qed.
Example C55_example : 
  (exists ops, convert ex_info col 9 ex_services false ex_conv = (ops, ConvertedAnyway) /\ length ops = 8) /\
  let f' := snd (run false ex_services ex_conv) in
  fget f' (POLICYPATH ++ ["30-user.policy.bak"]) = fget ex_conv (POLICYPATH ++ ["30-user.policy"]) /\
  rmap (map rule_str) (load_policy f' POLICYPATH_OLD 9 [POLICYPATH]) =
    rmap (map rule_str) (load_policy (base ++ [(POLICYPATH ++ ["30-user.policy"], L ["svc * work vault allow target=vault user=root"; "svc * vault work deny"; "other * vault work allow"]);
      (POLICYPATH ++ ["50-config-input.policy"], L ["qubes.InputKeyboard * sys-net dom0 allow"])]) POLICYPATH_OLD 9 [POLICYPATH]).
Proof. split; [eexists|]; vm_compute; auto. Qed.
(** a state in the middle of it *)
Example C87_example : exists ops o, convert ex_info col 9 ex_services true ex_conv = (ops, o) /\ o = Died EOs /\
  stopped ex_conv ops (fset (fold_left apply_op (firstn 3 ops) ex_conv) (POLICYPATH ++ ["30-user.policy"]) (NFile (Some "# Pol"))).
Proof.
  eexists _, _. split; [vm_compute; reflexivity|]. split; [reflexivity|]. cbn [firstn fold_left].
  apply st_next, st_next, st_next. apply st_writing.
Qed.

(** *** What does not survive *)
Definition differs (f : fs) (services : list (option string)) (yes : bool) (o : outcome) (q : request) (before after : res resolution) : Prop :=
  services_of (all_of f) (new_of f) services /\ fst (run yes services f) = o /\
  decision f q = before /\ decision (snd (run yes services f)) q = after.
Ltac differ := split; [apply filtered_services; vm_compute; reflexivity|vm_compute; auto].

(** An old file for an argument denies the service with this argument to everyone else. The
    conversion loses this, and the check does not notice: a call that was denied is allowed. *)
Definition ex_arg : fs := base ++ [old "svc+arg" ["work vault allow"]; old "svc" ["$anyvm $anyvm allow"]].
Theorem C55_argument_refuted : differs ex_arg [Some "svc"] true Converted (call "svc+arg" "sys-net" "vault")
  (Err (EAccessDenied true)) (Ok (RAllow (mkAllow None "vault" true false))).
Proof. differ. Qed.
(** The parameters autostart= and notify= are lost, and the check does not notice. *)
Definition ex_params : fs := base ++ [old "svc" ["sys-net work allow,autostart=no,notify=yes"]].
Theorem C55_parameters_refuted : differs ex_params [Some "svc"] true Converted (call "svc" "sys-net" "work")
  (Ok (RAllow (mkAllow None "work" false true))) (Ok (RAllow (mkAllow None "work" true false))).
Proof. differ. Qed.
(** A rule that denies a service to all is not written: later files decide. *)
Definition ex_deny : fs := base ++ [old "qubes.Filecopy" ["$anyvm $anyvm deny"]].
Theorem C55_denial_refuted : differs ex_deny [Some "qubes.Filecopy"] false ConvertedAnyway (call "qubes.Filecopy" "sys-net" "vault")
  (Err (EAccessDenied true)) (Ok (RAsk (mkAsk ["far"; "@dispvm:dvm"; "dvm"; "vault"; "work"] None None true false))).
Proof. differ. Qed.
(** The second of two rules for an input device of a qube is lost, although it is for other
    arguments. *)
Definition ex_input : fs := base ++ [old "qubes.InputKeyboard+foo" ["sys-net dom0 allow"]; old "qubes.InputKeyboard" ["sys-net dom0 allow"]].
Theorem C55_input_refuted : differs ex_input [Some "qubes.InputKeyboard"] false ConvertedAnyway (call "qubes.InputKeyboard" "sys-net" "dom0")
  (Ok (RAllow (mkAllow None "dom0" true false))) (Err (EAccessDenied true)).
Proof. differ. Qed.
(** Rules of one service that go to different files change their order. Here the answer is yes,
    and what was denied is allowed by what is left behind. *)
Definition ex_order : fs := base ++ [old "qubes.ClipboardPaste" ["work vault deny"; "$anyvm $anyvm allow"]].
Theorem C88_left_behind_refuted : differs ex_order [Some "qubes.ClipboardPaste"] true (Died EOs) (call "qubes.ClipboardPaste" "work" "vault")
  (Err (EAccessDenied true)) (Ok (RAllow (mkAllow None "vault" true false))).
Proof. differ. Qed.
Theorem C55_order_refuted : differs ex_order [Some "qubes.ClipboardPaste"] false ConvertedAnyway (call "qubes.ClipboardPaste" "work" "vault")
  (Err (EAccessDenied true)) (Ok (RAllow (mkAllow None "vault" true false))).
Proof. differ. Qed.
(** When the converted policy does not load, there is no question: the tool dies and leaves a
    policy that refuses everything. *)
Definition ex_empty : fs := base ++ [old "svc" ["work vault allow"]; old "+x" ["work vault allow"]].
Theorem C88_no_question_refuted : differs ex_empty [Some ""; Some "svc"] true (Died EAttr) (call "svc" "work" "vault")
  (Ok (RAllow (mkAllow None "vault" true false))) (Err ESyntax).
Proof. differ. Qed.
(** the hypotheses of [C88_restored_partial] *)
Example C88_example : exists ops0 ops o, convert ex_info col 9 [Some "qubes.ClipboardPaste"] false ex_order = (ops0, ConvertedAnyway) /\
  convert ex_info col 9 [Some "qubes.ClipboardPaste"] true ex_order = (ops, o).
Proof. eexists _, _, _. split; vm_compute; reflexivity. Qed.
