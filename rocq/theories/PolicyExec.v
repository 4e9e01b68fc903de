(** qrexec/tools/qrexec_policy_exec.py *)
From Coq Require Import String Ascii List Bool Arith.
From Verif Require Import Base SysInfo Token Rule Policy.
Import ListNotations.
Open Scope string_scope.
Open Scope list_scope.

(** Messages sent to the policy agent of a GUI domain (call_socket_service):
    the dialog of AgentAskResolution.execute 92-105 (icons omitted) and the
    notifications 139-148 and 406-415 *)
Inductive event :=
| EvAsk (guivm source service argument : string) (targets : list string) (default : string)
| EvNotify (guivm resolution service argument source target : string).

(** A computation that sends messages and returns or raises *)
Definition io (A : Type) := (res A * list event)%type.
Definition ioret {A} (r : res A) : io A := (r, []).

Inductive allow_kind := AK_JustEvaluate | AK_Notify.
Inductive ask_kind := KK_Agent | KK_JustEvaluate | KK_AssumeYes.

(** prepare_resolution_types, 179-191; the allow type of the caller is
    LogAllowedResolution (166-176), which logs and behaves as
    NotifyAllowedResolution *)
Definition ask_type (just_evaluate assume_yes : bool) : ask_kind :=
  if assume_yes then KK_AssumeYes
  else if just_evaluate then KK_JustEvaluate else KK_Agent.
Definition allow_type (just_evaluate : bool) : allow_kind :=
  if just_evaluate then AK_JustEvaluate else AK_Notify.

(** JustEvaluateAllowResolution.execute 44-46; NotifyAllowedResolution.execute
    129-150 *)
Definition run_allow (ak : allow_kind) (q : request) (a : allow_res) : io string :=
  match ak with
  | AK_JustEvaluate => ioret (Ok "result=allow")
  | AK_Notify =>
      let guivm := match dget (q_info q) (q_source q) with Some d => d_guivm d | None => None end in
      let ev := if a_notify a && negb (falsy guivm)
                then [EvNotify (opt_str guivm) "allow" (q_service q) (q_arg q) (q_source q) (a_target a)]
                else [] in
      (allow_execute q a, ev)
  end.

(** handle_user_response(...).execute() *)
Definition run_response (ak : allow_kind) (q : request) (k : ask_res) (resp : bool) (t : string) : io string :=
  match handle_user_response k resp t with
  | Ok a => run_allow ak q a
  | Err e => ioret (Err e)
  end.

(** The ask resolutions: JustEvaluateAskResolution 49-51, AssumeYesForAskResolution
    54-58, AgentAskResolution 61-126. [agent] is the answer of the policy agent,
    [None] when the call to it fails with an exception. *)
Definition run_ask (kk : ask_kind) (ak : allow_kind) (agent : option string)
  (q : request) (k : ask_res) : io string :=
  match kk with
  | KK_JustEvaluate => ioret (Ok "result=deny")
  | KK_AssumeYes => run_response ak q k true (tok_str (q_target q))
  | KK_Agent =>
      match dget (q_info q) (q_source q) with
      | None => ioret (Err EKey)
      | Some d =>
          if falsy (d_guivm d) then run_response ak q k false ""
          else
            let ev := EvAsk (opt_str (d_guivm d)) (q_source q) (q_service q) (q_arg q)
                            (k_targets k) (opt_str (k_default k)) in
            let '(r, evs) :=
              match agent with
              | None => ioret (Err EOs)
              | Some ans =>
                  if String.eqb ans "deny" then run_response ak q k false ""
                  else if starts "allow:" ans then run_response ak q k true (sdrop 6 ans)
                  else ioret handle_invalid_response
              end in
            (r, ev :: evs)
      end
  end.

Definition run_resolution (kk : ask_kind) (ak : allow_kind) (agent : option string)
  (q : request) (r : resolution) : io string :=
  match r with RAllow a => run_allow ak q a | RAsk k => run_ask kk ak agent q k end.

(** service_and_arg.index("+"), 369-373 *)
Definition split_service (s : string) : string * string :=
  match split1 "+" s with
  | Some (a, b) => (a, "+" +++ b)
  | None => (s, "+")
  end.

(** handle_request, 345-419. [policy] is the outcome of policy_cache.get_policy(),
    [sysinfo] is [None] when qubesd answers with an exception. *)
Definition handle_request (policy : res (list rule)) (sysinfo : option info) (agent : option string)
  (source intended_target service_and_arg : string)
  (just_evaluate assume_yes : bool) (reqsrc : string) : io string :=
  match sysinfo with
  | None => ioret (Ok "result=deny")
  | Some i =>
      let '(service, argument) := split_service service_and_arg in
      let '(r, evs) :=
        match policy with
        | Err e => ioret (Err e)
        | Ok rules =>
            match make_request i service argument source intended_target reqsrc with
            | Err e => ioret (Err e)
            | Ok q =>
                match evaluate rules q with
                | Err e => ioret (Err e)
                | Ok res => run_resolution (ask_type just_evaluate assume_yes)
                              (allow_type just_evaluate) agent q res
                end
            end
        end in
      match r with
      | Ok s => (Ok s, evs)
      | Err ESyntax => (Ok "result=deny", evs)
      | Err e =>
          if is_access_denied e then
            if exn_notify e && negb just_evaluate then
              match dget i source with
              | None => (Err EKey, evs)
              | Some d =>
                  let n := if falsy (d_guivm d) then []
                           else [EvNotify (opt_str (d_guivm d)) "deny" service argument source intended_target] in
                  (Ok "result=deny", evs ++ n)
              end
            else (Ok "result=deny", evs)
          else (Err e, evs)
      end
  end.

(** substring test: sub in s *)
Fixpoint contains (sub s : string) : bool :=
  starts sub s || match s with EmptyString => false | String _ s' => contains sub s' end.

(** main, 331-342: exit status when get_result returned the answer text *)
Definition main_status (result : string) : nat :=
  if contains (nl +++ "result=allow" +++ nl) result || String.eqb result "result=allow"
  then 0 else 1.
