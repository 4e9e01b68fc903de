(** Where the conversion of the old policy may put a rule: the rules that the configuration tool
    can handle, for each of its files. *)
From Coq Require Import String Ascii List Bool.
From Verif Require Import Base SysInfo Token Rule Policy SpecPolicy SpecGraph.
Import ListNotations.
Open Scope string_scope.
Open Scope list_scope.

(** an option of an action that is not given, or is empty *)
Definition no_user (u : option string) : Prop := u = None \/ u = Some "".
(** actions without further words *)
Definition plain_ask (a : action) : Prop := exists u n s, a = Ask None None u n s /\ no_user u.
Definition plain_allow (a : action) : Prop := exists u n s, a = Allow None u n s /\ no_user u.
Definition deny (a : action) : Prop := exists n, a = Deny n.
Definition allow (a : action) : Prop := exists t u n s, a = Allow t u n s.
(** one qube, by its name *)
Definition one_qube (t : tok) : Prop := exists n, t = TName n.
(** a new disposable, as target of an action *)
Definition disposable (t : tok) : Prop := t = TDisp \/ exists v, t = TDispTmpl v.
Definition dom0_tok (t : tok) : Prop := t = TAdmin \/ t = TName "dom0".
(** where an action sends a call, or what it suggests *)
Definition sends (a : action) (t : tok) : Prop :=
  match a with
  | Deny _ => False
  | Allow g _ _ _ => g = Some t
  | Ask g d _ _ _ => g = Some t \/ d = Some t
  end.

(** [fits file r]: rule [r] is of the form that the tool has in [file] *)
Inductive fits : string -> rule -> Prop :=
| fi_clip r : r_service r = Some "qubes.ClipboardPaste" ->
    plain_ask (r_action r) \/ deny (r_action r) -> fits "50-config-clipboard" r
| fi_copy r : r_service r = Some "qubes.Filecopy" ->
    plain_ask (r_action r) \/ plain_allow (r_action r) \/ deny (r_action r) -> fits "50-config-filecopy" r
| fi_updates r : r_service r = Some "qubes.UpdatesProxy" ->
    (one_qube (r_source r) \/ r_source r = TType "TemplateVM" \/ r_source r = TTag "whonix-updatevm") ->
    (one_qube (r_target r) \/ r_target r = TAdmin \/ r_target r = TDefault) ->
    allow (r_action r) -> fits "50-config-updates" r
| fi_open r file : r_service r = Some "qubes.OpenInVM" /\ file = "50-config-openinvm" \/ r_service r = Some "qubes.OpenURL" /\ file = "50-config-openurl" ->
    r_target r = TDisp ->
    (forall t, sends (r_action r) t -> disposable t) ->
    ~ plain_ask (r_action r) -> ~ plain_allow (r_action r) -> fits file r
| fi_input r : In (r_service r) [Some "qubes.InputKeyboard"; Some "qubes.InputMouse"; Some "qubes.InputTablet"] ->
    one_qube (r_source r) -> dom0_tok (r_target r) ->
    (forall t, sends (r_action r) t -> dom0_tok t) -> fits "50-config-input" r
| fi_u2f r : In (r_service r) [Some "u2f.Authenticate"; Some "u2f.Register"] ->
    one_qube (r_target r) \/ r_target r = TAdmin -> r_arg r = None -> fits "50-config-u2f" r
| fi_register r : r_service r = Some "policy.RegisterArgument" -> r_arg r = Some "+u2f.Authenticate" -> fits "50-config-u2f" r.

(** What the check of the tool lets through besides: *)
Inductive fits_not : string -> rule -> Prop :=
(* questions in which the name of a qube or user has the letters "allow" in it *)
| fn_updates r : r_service r = Some "qubes.UpdatesProxy" ->
    (one_qube (r_source r) \/ r_source r = TType "TemplateVM" \/ r_source r = TTag "whonix-updatevm") ->
    (one_qube (r_target r) \/ r_target r = TAdmin \/ r_target r = TDefault) ->
    ~ allow (r_action r) -> ~ deny (r_action r) -> ~ plain_ask (r_action r) -> fits_not "50-config-updates" r
(* calls that ask for a disposable and are sent to another qube *)
| fn_open r file t : r_service r = Some "qubes.OpenInVM" /\ file = "50-config-openinvm" \/ r_service r = Some "qubes.OpenURL" /\ file = "50-config-openurl" ->
    r_target r = TDisp -> sends (r_action r) t -> ~ disposable t -> fits_not file r
(* questions for a call to dom0 of which the default is another qube *)
| fn_input r d u n s : In (r_service r) [Some "qubes.InputKeyboard"; Some "qubes.InputMouse"; Some "qubes.InputTablet"] ->
    one_qube (r_source r) -> dom0_tok (r_target r) ->
    (exists g, r_action r = Ask (Some g) (Some d) u n s /\ dom0_tok g) -> ~ dom0_tok d -> fits_not "50-config-input" r.

(** ** When the tool asks *)
(** What a call that is let through looks like: who calls, where it goes, whether there is a
    question, and the service with the argument and the action of the rule that decides. (For
    services that no rule names, the service is "None".) *)
Definition looks_like (i : info) (rules : list rule) (src dst label : string) (asks : bool) : Prop :=
  exists name t q r x,
    call_text i t /\ is_name i src /\ dst = destination r q /\
    asks = match x with RAsk _ => true | RAllow _ => false end /\
    label = name +++ match r_arg r with Some arg => arg | None => "" end +++ " " +++ action_str (r_action r) /\
    ((exists ar, make_request i name ar src t "" = Ok q /\ verdict rules q r x) \/
     (name = "None" /\ forall sv ar, starts "+" ar = true -> (forall r, In r rules -> r_service r <> Some sv) ->
        exists q', make_request i sv ar src t "" = Ok q' /\ verdict rules q' r x /\ destination r q' = dst)).

(** no quotation mark in the names of the system *)
Definition quote_mark : ascii := """"%char.
Definition no_marks (i : info) : Prop := forall n d, dget i n = Some d -> has_char quote_mark n = false.
Definition no_mark_targets (rules : list rule) : Prop :=
  forall r t, In r rules -> action_target (r_action r) = Some t -> has_char quote_mark (tok_str t) = false.
