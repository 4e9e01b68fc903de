(** Policy evaluation: qrexec/policy/parser.py 711-1342 and 1821-1928 *)
From Coq Require Import String Ascii List Bool Arith.
From Verif Require Import Base SysInfo Token Rule.
Import ListNotations.
Open Scope string_scope.
Open Scope list_scope.

Definition denied {A} : res A := Err (EAccessDenied true).

(** Request.__init__, parser.py 984-1040. [argument] is asserted to start with
    a plus sign; requested_source None or "" is [""]. *)
Definition make_request (i : info) (service argument source target reqsrc : string) : res request :=
  let target := if String.eqb target "" then "@default" else target in
  if negb (starts "+" argument) then Err EAssert
  else
    do t0 <- parse_tok CIntended target;
    do t <- verify i t0;
    if String.eqb reqsrc "" then
      Ok (mkRequest service argument source t "" None i)
    else
      match dget i reqsrc with
      | None => Err ERequest
      | Some d =>
          if negb (String.eqb (d_type d) "RemoteVM") then Err ERequest
          else match d_relay d with
               | Some relay =>
                   if String.eqb relay source
                   then Ok (mkRequest service argument reqsrc t reqsrc (Some source) i)
                   else Err ERequest
               | None => Err ERequest
               end
      end.

(** AllowResolution 743-757 and AskResolution 873-905: the fields used later *)
Record allow_res := mkAllow {
  a_user : option string;
  a_target : string;
  a_autostart : bool;
  a_notify : bool
}.
Record ask_res := mkAsk {
  k_targets : list string;
  k_default : option string;
  k_user : option string;
  k_autostart : bool;
  k_notify : bool
}.
Inductive resolution := RAllow (a : allow_res) | RAsk (k : ask_res).

(** ActionType.allow_no_autostart, parser.py 1098-1109 *)
Definition allow_no_autostart (i : info) (target : string) : res bool :=
  if is_dom0 target then Ok true
  else if starts "@dispvm" target then Ok false
  else match dget i target with
       | Some d => Ok (String.eqb (d_power d) "Running")
       | None => Err EAssert
       end.

(** assert self.rule.is_match(request), 1188 and 1282 *)
Definition assert_match (r : rule) (q : request) : res unit :=
  do m <- is_match r q; if m then Ok tt else Err EAssert.

(** Allow.evaluate, parser.py 1179-1232 *)
Definition allow_evaluate (r : rule) (q : request)
  (target : option tok) (user : option string) (notify autostart : bool) : res resolution :=
  let i := q_info q in
  do _ <- assert_match r q;
  do t0 <- parse_tok CIntended (tok_str (match target with Some t => t | None => q_target q end));
  do t <- verify i t0;
  if String.eqb (tok_str t) "@default" then denied
  else
    do tgt <- match t with
              | TDisp =>
                  do tmpl <- get_dispvm_template i (q_source q);
                  match tmpl with
                  | None => denied
                  | Some tm => Ok (tok_str tm)
                  end
              | TAdmin => Ok "dom0"
              | _ => Ok (tok_str t)
              end;
    do ok <- (if autostart then Ok true else allow_no_autostart i tgt);
    if ok then Ok (RAllow (mkAllow user tgt autostart notify))
    else Err (EAccessDenied notify).

(** ** collect_targets_for_ask, parser.py 1859-1928

    Python sets are modelled by duplicate-free lists; their order is not
    specified by Python and no theorem depends on it. *)
Definition set_add (x : string) (l : list string) : list string :=
  if smem x l then l else l ++ [x].
Definition set_remove (x : string) (l : list string) : list string :=
  filter (fun y => negb (String.eqb x y)) l.
Definition set_union (a b : list string) : list string := fold_left (fun s x => set_add x s) b a.
Definition set_diff (a b : list string) : list string := filter (fun x => negb (smem x b)) a.

(** the inner loop 1886-1900: KeyError of uuid_to_name skips the entry *)
Fixpoint expansion_set (i : info) (l : list string) : list string :=
  match l with
  | [] => []
  | x :: l' =>
      match uuid_to_name i x with
      | Ok n => set_add n (expansion_set i l')
      | Err _ => expansion_set i l'
      end
  end.

(** the loop over reversed(self.rules), 1877-1904 *)
Fixpoint collect_loop (rs : list rule) (q : request) (targets : list string) : res (list string) :=
  match rs with
  | [] => Ok targets
  | r :: rs' =>
      do m <- is_match_but_target r q;
      if m then
        let rule_target := match action_target (r_action r) with
                           | Some t => t | None => r_target r end in
        do ex <- expand (q_info q) rule_target;
        let exp := expansion_set (q_info q) ex in
        collect_loop rs' q (if is_deny (r_action r) then set_diff targets exp
                            else set_union targets exp)
      else collect_loop rs' q targets
  end.

(** the loop over targets.copy(), 1919-1926 *)
Definition choice_name (t : string) : string :=
  if starts "@dispvm:" t then sdrop 8 t else t.
Fixpoint drop_internal (i : info) (l : list string) : res (list string) :=
  match l with
  | [] => Ok []
  | t :: l' =>
      do d <- dgetE i (choice_name t);
      do l'' <- drop_internal i l';
      Ok (if d_internal d then l'' else t :: l'')
  end.

Definition collect_targets_for_ask (rules : list rule) (q : request) : res (list string) :=
  let i := q_info q in
  let source := q_source q in
  do su <- (if starts "uuid:" source then
              do d <- dgetE i source; Ok (source, d_name d)
            else
              do d <- dgetE i source;
              match d_uuid d with
              | Some u => Ok ("uuid:" +++ u, source)
              | None => Err EKey
              end);
  let '(source_uuid, source_name) := su in
  do targets <- collect_loop (rev rules) q [];
  do targets <- (if smem "@dispvm" targets then
                   let targets := set_remove "@dispvm" targets in
                   do t <- get_dispvm_template i source;
                   Ok (match t with
                       | Some t => set_add (tok_str t) targets
                       | None => targets end)
                 else Ok targets);
  let targets := if smem "@adminvm" targets
                 then set_add "dom0" (set_remove "@adminvm" targets) else targets in
  let targets := set_remove source_name targets in
  let targets := set_remove source_uuid targets in
  drop_internal i targets.

(** [target for target in targets_for_ask if allow_no_autostart(target)] *)
Fixpoint filter_autostart (i : info) (l : list string) : res (list string) :=
  match l with
  | [] => Ok []
  | t :: l' =>
      do b <- allow_no_autostart i t;
      do l'' <- filter_autostart i l';
      Ok (if b then t :: l'' else l'')
  end.

(** Ask.evaluate, parser.py 1273-1341 *)
Definition ask_evaluate (rules : list rule) (r : rule) (q : request)
  (target default_target : option tok) (user : option string) (notify autostart : bool)
  : res resolution :=
  let i := q_info q in
  do _ <- assert_match r q;
  do targets <- match target with
                | Some t => Ok (if is_dom0 (tok_str t) then ["dom0"] else [tok_str t])
                | None => collect_targets_for_ask rules q
                end;
  do targets <- (if autostart then Ok targets else filter_autostart i targets);
  match targets with
  | [] => denied
  | _ =>
      do dflt <- match default_target with
                 | None => Ok None
                 | Some TDisp => rmap (option_map tok_str) (get_dispvm_template i (q_source q))
                 | Some t => Ok (Some (if is_dom0 (tok_str t) then "dom0" else tok_str t))
                 end;
      let dflt := match dflt with
                  | Some d => if smem d targets then Some d else None
                  | None => None
                  end in
      Ok (RAsk (mkAsk targets dflt user autostart notify))
  end.

(** action.evaluate: Deny.evaluate 1124-1134 *)
Definition action_evaluate (rules : list rule) (r : rule) (q : request) : res resolution :=
  match r_action r with
  | Deny notify => Err (EAccessDenied notify)
  | Allow t u n a => allow_evaluate r q t u n a
  | Ask t d u n a => ask_evaluate rules r q t d u n a
  end.

(** find_matching_rule, parser.py 1846-1852 *)
Fixpoint find_matching_rule (rs : list rule) (q : request) : res rule :=
  match rs with
  | [] => denied
  | r :: rs' =>
      do m <- is_match r q;
      if m then Ok r else find_matching_rule rs' q
  end.

(** evaluate, parser.py 1833-1844 *)
Definition evaluate (rules : list rule) (q : request) : res resolution :=
  do r <- find_matching_rule rules q;
  action_evaluate rules r q.

(** find_rules_for_service, parser.py 1854-1857 *)
Definition find_rules_for_service (rules : list rule) (service : string) : list rule :=
  filter (fun r => opt_match (r_service r) service) rules.

(** ** Executing resolutions *)

Definition py_bool (b : bool) : string := if b then "True" else "False".
(** self.user or 'DEFAULT' *)
Definition user_or_default (u : option string) : string :=
  match u with Some s => if String.eqb s "" then "DEFAULT" else s | None => "DEFAULT" end.
(** dict.get(key) that is falsy: None or "" *)
Definition falsy (o : option string) : bool :=
  match o with None => true | Some s => String.eqb s "" end.
Definition opt_str (o : option string) : string := match o with Some s => s | None => "" end.

(** target_info['uuid'] *)
Definition uuidE (d : dom) : res string :=
  match d_uuid d with Some u => Ok u | None => Err EKey end.

(** AllowResolution.execute, parser.py 777-870 *)
Definition policy_source_line (q : request) : list string :=
  if String.eqb (q_reqsrc q) "" then [] else ["policy_source=" +++ q_source q].
Definition allow_execute (q : request) (a : allow_res) : res string :=
  let i := q_info q in
  let target := a_target a in
  if String.eqb (q_source q) target then denied
  else if is_dom0 target then
    Ok (join nl ["user=" +++ user_or_default (a_user a);
                 "result=allow";
                 "target=dom0";
                 "autostart=" +++ py_bool (a_autostart a);
                 "requested_target=" +++ tok_str (q_target q)])
  else if starts "@dispvm:" target then
    do d <- dgetE i (sdrop 8 target);
    do u <- uuidE d;
    Ok (join nl (["user=" +++ user_or_default (a_user a);
                  "result=allow";
                  "target=" +++ target;
                  "target_uuid=@dispvm:uuid:" +++ u;
                  "autostart=" +++ py_bool (a_autostart a);
                  "requested_target=" +++ tok_str (q_target q)]
                 ++ policy_source_line q))
  else
    do d <- dgetE i target;
    let remote := String.eqb (d_type d) "RemoteVM" in
    let user_line := if remote then "user=DEFAULT" else "user=" +++ user_or_default (a_user a) in
    if remote then
      if falsy (d_relay d) then denied
      else if falsy (d_transport d) then denied
      else
        let relayvm_name := opt_str (d_relay d) in
        do rd <- dgetE i relayvm_name;
        let service := opt_str (d_transport d) +++ "+" +++ tok_str (q_target q) +++ "+"
                       +++ q_service q +++ q_arg q in
        do u <- uuidE rd;
        Ok (join nl ([user_line;
                      "result=allow";
                      "target=" +++ relayvm_name;
                      "target_uuid=uuid:" +++ u;
                      "autostart=" +++ py_bool (a_autostart a);
                      "requested_target=" +++ tok_str (q_target q);
                      "service=" +++ service]
                     ++ policy_source_line q))
    else
      do u <- uuidE d;
      Ok (join nl ([user_line;
                    "result=allow";
                    "target=" +++ target;
                    "target_uuid=uuid:" +++ u;
                    "autostart=" +++ py_bool (a_autostart a);
                    "requested_target=" +++ tok_str (q_target q)]
                   ++ policy_source_line q)).

(** AllowResolution.from_ask_resolution, parser.py 761-775 *)
Definition from_ask_resolution (k : ask_res) (target : string) : res allow_res :=
  do t <- (if starts "@dispvm:" target
           then rmap tok_str (parse_tok CDispTmpl target) else Ok target);
  Ok (mkAllow (k_user k) t (k_autostart k) (k_notify k)).

(** AskResolution.handle_user_response, parser.py 907-939 *)
Definition handle_user_response (k : ask_res) (response : bool) (target : string) : res allow_res :=
  if negb response then Err (EAccessDenied (k_notify k))
  else if negb (smem target (k_targets k)) then denied
  else from_ask_resolution k target.

(** AskResolution.handle_invalid_response 941-946, AskResolution.execute 948-957 *)
Definition handle_invalid_response : res string := denied.
Definition ask_execute_base : res string := denied.
