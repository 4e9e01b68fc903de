(** qrexec-legacy-convert: qrexec/tools/qrexec_legacy_convert.py.

    Not modelled: what is printed, permissions of files, and failing writes. The description
    of the system is taken to be the same in both graphs. *)
From Coq Require Import String Ascii List Bool Arith.
From Verif Require Import Base SysInfo Token Rule Policy FileSys Loader LineLoader Graph.
Import ListNotations.
Open Scope string_scope.
Open Scope list_scope.

(** 36-69 *)
Definition CONFIG_FILE := "30-user".
Definition SERVICE_TO_FILE : list (string * string) := [
  ("qubes.ClipboardPaste", "50-config-clipboard"); ("qubes.Filecopy", "50-config-filecopy");
  ("qubes.UpdatesProxy", "50-config-updates"); ("qubes.OpenInVM", "50-config-openinvm");
  ("qubes.OpenURL", "50-config-openurl"); ("qubes.InputKeyboard", "50-config-input");
  ("qubes.InputMouse", "50-config-input"); ("qubes.InputTablet", "50-config-input");
  ("u2f.Authenticate", "50-config-u2f"); ("u2f.Register", "50-config-u2f");
  ("policy.RegisterArgument", "50-config-u2f")].
Definition INPUT_FILE := "50-config-input".
Definition DISCLAIMER : string := nl +++
"# Policy rules in this file were automatically converted from old" +++ nl +++
"# policy format. Old files can be found in /etc/qubes-rpc/policy; they have" +++ nl +++
"# the suffix .rpmsave." +++ nl +++ nl +++
"# All rules pertaining to qubes.Gpg were moved to this file. If you want to" +++ nl +++
"# move them to the relevant GUI config file, see 50-config-splitgpg. Caution:" +++ nl +++
"# the GUI tool for qubes.Gpg policy supports only policy rules that have a" +++ nl +++
"# single vm as a target." +++ nl.
Definition TOOL_DISCLAIMER : string := nl +++
"# THIS IS AN AUTOMATICALLY GENERATED POLICY FILE." +++ nl +++
"# Any changes made manually may be overwritten by Qubes Configuration Tools." +++ nl.

(** ** RuleWrapper 80-169 *)
(** sub in s *)
Fixpoint contains (sub s : string) : bool :=
  starts sub s || match s with EmptyString => false | String _ s' => contains sub s' end.
(** VMToken.type == keyword, parser.py 362-373 *)
Definition is_keyword (t : tok) : bool := starts "@" (tok_str t) || String.eqb (tok_str t) "*".
Definition default_target (a : action) : option tok := match a with Ask _ d _ _ _ => d | _ => None end.
Definition act_in (r : rule) (l : list string) : bool := smem (action_str (r_action r)) l.
Definition is_dom0_name (s : string) : bool := smem s ["dom0"; "@adminvm"].

(** is_rule_compatible 88-156 *)
Definition is_rule_compatible (r : rule) : bool :=
  match r_service r with
  | None => false
  | Some sv =>
      if String.eqb sv "qubes.ClipboardPaste" then act_in r ["ask"; "deny"]
      else if String.eqb sv "qubes.Filecopy" then act_in r ["ask"; "deny"; "allow"]
      else if String.eqb sv "qubes.UpdatesProxy" then
        if is_keyword (r_source r) && negb (smem (tok_str (r_source r)) ["@type:TemplateVM"; "@tag:whonix-updatevm"]) then false
        else if negb (contains "allow" (action_str (r_action r))) then false
        else negb (is_keyword (r_target r)) || String.eqb (tok_str (r_target r)) "@adminvm" || String.eqb (tok_str (r_target r)) "@default"
      else if smem sv ["qubes.OpenInVM"; "qubes.OpenURL"] then
        if negb (String.eqb (tok_str (r_target r)) "@dispvm") then false
        else
          let target := if act_in r ["ask"] then py_opt (option_map tok_str (default_target (r_action r)))
                        else if act_in r ["allow"] then py_opt (option_map tok_str (action_target (r_action r)))
                        else "@dispvm" in
          contains "@dispvm" target
      else if String.eqb sv "policy.RegisterArgument" then
        match r_arg r with Some a => String.eqb a "+u2f.Authenticate" | None => false end
      else if smem sv ["u2f.Authenticate"; "u2f.Register"] then
        if is_keyword (r_target r) && negb (String.eqb (tok_str (r_target r)) "@adminvm") then false
        else match r_arg r with Some a => String.eqb a "" | None => true end
      else if smem sv ["qubes.InputKeyboard"; "qubes.InputMouse"; "qubes.InputTablet"] then
        if negb (is_dom0_name (tok_str (r_target r))) then false
        else if is_keyword (r_source r) then false
        else match action_target (r_action r) with
             | Some t => is_dom0_name (tok_str t)
             | None => match default_target (r_action r) with
                       | Some t => is_dom0_name (tok_str t)
                       | None => true
                       end
             end
      else false
  end.

(** __eq__ 158-162 *)
Definition same_place (a b : nrule) : bool :=
  String.eqb (r_file (fst a)) (r_file (fst b)) &&
  match snd a, snd b with Some x, Some y => Nat.eqb x y | None, None => true | _, _ => false end.
Definition nrule_str (r : nrule) : string := rule_str (fst r).
Definition of_service (sv : option string) (l : list nrule) : list nrule :=
  filter (fun r => match r_service (fst r), sv with
                   | Some a, Some b => String.eqb a b | None, None => true | _, _ => false end) l.

(** ** main 221-281: which rules go where *)
(** 225-230: all_rules are those with a line number *)
Definition numbered (r : nrule) : bool := match snd r with Some n => negb (Nat.eqb n 0) | None => false end.
Definition legacy_rules (all new : list nrule) : list nrule :=
  filter (fun r => negb (existsb (same_place r) new)) (filter numbered all).
(** 253-262 *)
Definition deny_all (r : nrule) : bool :=
  String.eqb (action_str (r_action (fst r))) "deny" && String.eqb (tok_str (r_source (fst r))) "@anyvm"
  && String.eqb (tok_str (r_target (fst r))) "@anyvm"
  && match r_arg (fst r) with Some a => String.eqb a "" | None => true end.
Fixpoint cut (l : list nrule) : list nrule :=
  match l with [] => [] | r :: l' => if deny_all r then [] else r :: cut l' end.
(** the body of the loop 240-275 *)
Definition target_file (sv : option string) : string :=
  match sv with
  | Some s => match dget SERVICE_TO_FILE s with Some f => f | None => CONFIG_FILE end
  | None => CONFIG_FILE
  end.
Definition strs_eqb (a b : list string) : bool := if list_eq_dec string_dec a b then true else false.
Definition for_service (legacy new : list nrule) (sv : option string) : list (string * nrule) :=
  let legacy := of_service sv legacy in
  let non_legacy_str := map nrule_str (of_service sv new) in
  if strs_eqb (map nrule_str legacy) non_legacy_str || match legacy with [] => true | _ => false end then []
  else
    let missing := filter (fun r => negb (smem (nrule_str r) non_legacy_str)) legacy in
    map (fun r => (if is_rule_compatible (fst r) then target_file sv else CONFIG_FILE, r)) (cut missing).
(** split_input_rules 172-196: the first rule for each service and source; remaining_rules
    stays empty *)
Fixpoint split_input (seen : list (option string * string)) (l : list nrule) : list nrule :=
  match l with
  | [] => []
  | r :: l' =>
      let c := (r_service (fst r), tok_str (r_source (fst r))) in
      if existsb (fun d : option string * string =>
           match fst d, fst c with Some a, Some b => String.eqb a b | None, None => true | _, _ => false end && String.eqb (snd d) (snd c)) seen
      then split_input seen l'
      else r :: split_input (c :: seen) l'
  end.
(** rules_to_save, as a list of files with their rules in the order of the keys.
    [services]: the set all_services in the order in which it is walked through *)
Definition files_to_save : list string :=
  [CONFIG_FILE; "50-config-clipboard"; "50-config-filecopy"; "50-config-updates"; "50-config-openinvm";
   "50-config-openurl"; INPUT_FILE; "50-config-u2f"].
Definition rules_to_save (all new : list nrule) (services : list (option string)) : list (string * list nrule) :=
  let plan := flat_map (for_service (legacy_rules all new) new) services in
  map (fun f =>
    let l := map snd (filter (fun x : string * nrule => String.eqb (fst x) f) plan) in
    (f, if String.eqb f INPUT_FILE then split_input [] l else l)) files_to_save.

(** ** Writing: 283-318 *)
(** Writing truncates first. [OWrite] also stands for a prefix of the text being written:
    every write is preceded by one of the empty text. *)
Inductive op := OWrite (p : path) (c : string) | ORename (p q : path) | OUnlink (p : path).
Definition apply_op (f : fs) (o : op) : fs :=
  match o with
  | OWrite p c => fset f p (NFile (Some c))
  | ORename p q => match fget f p with Some n => fset (fdel f p) q n | None => f end
  | OUnlink p => fdel f p
  end.
Definition exists_path (f : fs) (p : path) : bool := match fget f p with Some _ => true | None => false end.
(** the loops that look for a free name: at most as many steps as there are files *)
Fixpoint free_name (fuel : nat) (f : fs) (d : path) (name suffix : string) : string :=
  match fuel with
  | 0 => name
  | S fuel' => if exists_path f (d ++ [name]) then free_name fuel' f d (name +++ suffix) suffix else name
  end.
Definition backup_name (f : fs) (d : path) (name suffix : string) : string :=
  free_name (S (length f)) f d (name +++ suffix) suffix.

Definition lstrip_nl (s : string) : string :=
  (fix go s := match s with String c s' => if Ascii.eqb c NL then go s' else s | EmptyString => s end) s.
Definition new_text (filename : string) (rules : list nrule) : string :=
  (if String.eqb filename CONFIG_FILE then DISCLAIMER else TOOL_DISCLAIMER) +++ join nl (map nrule_str rules) +++ nl.
(** 300-304 *)
Definition merged (text current : string) : string :=
  let current := if starts TOOL_DISCLAIMER current then sdrop (String.length TOOL_DISCLAIMER) current else current in
  rstrip_char NL text +++ nl +++ lstrip_nl current.
(** one file: the operations, the backup made, or the exception *)
Definition save_one (f : fs) (filename : string) (rules : list nrule) : list op * res (list (path * path)) :=
  match rules with
  | [] => ([], Ok [])
  | _ =>
      let name := filename +++ ".policy" in
      let file := POLICYPATH ++ [name] in
      let text := new_text filename rules in
      if exists_path f file then
        let backup := POLICYPATH ++ [backup_name f POLICYPATH name ".bak"] in
        match fget f file with
        | Some (NFile (Some c)) =>
            let copy := [OWrite backup ""; OWrite backup c] in
            if String.eqb filename INPUT_FILE then (copy ++ [OWrite file ""; OWrite file text], Ok [(file, backup)])
            else match read_text f file with
                 | Ok current => (copy ++ [OWrite file ""; OWrite file (merged text (univ_nl current))], Ok [(file, backup)])
                 | Err e => (copy, Err e)
                 end
        | _ => ([], Err EOs)
        end
      else ([OWrite file ""; OWrite file text], Ok [])
  end.
Fixpoint save_all (f : fs) (l : list (string * list nrule)) : list op * res (list (path * path)) :=
  match l with
  | [] => ([], Ok [])
  | (n, rs) :: l' =>
      match save_one f n rs with
      | (ops, Err e) => (ops, Err e)
      | (ops, Ok b) => match save_all (fold_left apply_op ops f) l' with
                       | (ops', Ok b') => (ops ++ ops', Ok (b ++ b'))
                       | (ops', Err e) => (ops ++ ops', Err e)
                       end
      end
  end.

(** str.endswith *)
Definition ends (suf s : string) : bool := starts (String.string_of_list_ascii (rev (String.list_ascii_of_string suf)))
                                                  (String.string_of_list_ascii (rev (String.list_ascii_of_string s))).
(** 311-318: the old files; the directory is read before the loop *)
Fixpoint remove_old (f : fs) (names : list string) : list op * list (path * path) :=
  match names with
  | [] => ([], [])
  | n :: names' =>
      let file := POLICYPATH_OLD ++ [n] in
      if is_file f file && negb (ends ".rpmsave" n) then
        let backup := POLICYPATH_OLD ++ [backup_name f POLICYPATH_OLD n ".rpmsave"] in
        let (ops, b) := remove_old (apply_op f (ORename file backup)) names' in
        (ORename file backup :: ops, (file, backup) :: b)
      else remove_old f names'
  end.

(** 343-347: unlink is an error for a file that is not there *)
Fixpoint restore (f : fs) (backups : list (path * path)) : list op * res unit :=
  match backups with
  | [] => ([], Ok tt)
  | (new_file, backup) :: l =>
      if exists_path f new_file then
        let ops := [OUnlink new_file; ORename backup new_file] in
        let (ops', r) := restore (fold_left apply_op ops f) l in (ops ++ ops', r)
      else ([], Err EOs)
  end.

(** ** main 199-354 *)
Inductive outcome := Converted | ConvertedAnyway | Reverted | Died (e : exn).
Definition set_eqb (a b : list string) : bool := forallb (fun x => smem x b) a && forallb (fun x => smem x a) b.
(** the lines of the graph as a set *)
Definition graph_of (i : info) (color : string -> string) (fuel : nat) (f : fs) : res (list string) :=
  do rules <- load_policy f POLICYPATH_OLD fuel [POLICYPATH];
  graph_main i color (mkArgs false [] [] [] false true) rules.
(** [yes]: the answer to the question, if there is one *)
Definition convert (i : info) (color : string -> string) (fuel : nat) (services : list (option string)) (yes : bool) (f : fs)
  : list op * outcome :=
  match graph_of i color fuel f with
  | Err e => ([], Died e)
  | Ok initial =>
      match nload_policy f POLICYPATH_OLD (ncompat f POLICYPATH_OLD) fuel [POLICYPATH],
            nload_policy f POLICYPATH_OLD no_compat fuel [POLICYPATH] with
      | Ok all, Ok new =>
          match save_all f (rules_to_save all new services) with
          | (ops1, Err e) => (ops1, Died e)
          | (ops1, Ok b1) =>
              let f1 := fold_left apply_op ops1 f in
              match iterdir f1 POLICYPATH_OLD with
              | Err e => (ops1, Died e)
              | Ok names =>
                  let (ops2, b2) := remove_old f1 names in
                  let f2 := fold_left apply_op ops2 f1 in
                  match graph_of i color fuel f2 with
                  | Err _ => (ops1 ++ ops2, Died EAttr)     (* str has no difference() *)
                  | Ok current =>
                      if set_eqb initial current then (ops1 ++ ops2, Converted)
                      else if yes then
                        match restore f2 (b1 ++ b2) with
                        | (ops3, Ok _) => (ops1 ++ ops2 ++ ops3, Reverted)
                        | (ops3, Err e) => (ops1 ++ ops2 ++ ops3, Died e)
                        end
                      else (ops1 ++ ops2, ConvertedAnyway)
                  end
              end
          end
      | Err e, _ => ([], Died e)
      | _, Err e => ([], Died e)
      end
  end.
