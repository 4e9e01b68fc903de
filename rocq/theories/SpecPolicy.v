(** Independent specification of tokens, matching and verdicts. Nothing here
    refers to the functions of the model: only to its data types (system
    description, tokens, rules, requests). *)
From Coq Require Import String Ascii List Bool.
From Verif Require Import Base SysInfo Token Rule.
Import ListNotations.
Open Scope string_scope.
Open Scope list_scope.

(** ** Token grammar: which texts may stand in which column *)
Definition keywords (c : ctx) : list string :=
  match c with
  | CSource => ["*"; "@adminvm"; "@anyvm"]
  | CTarget => ["*"; "@adminvm"; "@anyvm"; "@default"; "@dispvm"]
  | CRedirect => ["@adminvm"; "@dispvm"]
  | CIntended => ["@adminvm"; "@default"; "@dispvm"]
  | CDispTmpl => []
  end.
Definition value_keywords (c : ctx) : list string :=
  match c with
  | CSource | CTarget => ["@type:"; "@tag:"; "@dispvm:"; "@dispvm:@tag:"]
  | CRedirect | CIntended | CDispTmpl => ["@dispvm:"]
  end.
Inductive allowed_text (c : ctx) (s : string) : Prop :=
| at_plain : s <> "" -> starts "@" s = false -> s <> "*" -> allowed_text c s
| at_keyword : In s (keywords c) -> allowed_text c s
| at_valued p v : In p (value_keywords c) -> s = p +++ v -> v <> "" ->
    starts "@" v = false -> allowed_text c s.

(** ** Qubes *)

(** The three names of dom0 *)
Definition means_dom0 (s : string) : Prop :=
  s = "dom0" \/ s = "@adminvm" \/ s = "uuid:00000000-0000-0000-0000-000000000000".

(** Two designations (name or uuid:...) of one qube *)
Definition same_qube (i : info) (a b : string) : Prop :=
  a = b \/ exists d, dget i a = Some d /\ dget i b = Some d.

Definition exists_qube (i : info) (s : string) : Prop := exists d, dget i s = Some d.

(** The template a disposable request of caller [src] refers to *)
Inductive disp_template (i : info) (src : string) : tok -> string -> Prop :=
| dt_explicit w : disp_template i src (TDispTmpl w) w
| dt_default w d : dget i src = Some d -> d_ddisp d = Some w ->
    disp_template i src TDisp w.

(** ** Meaning of a column for the call of [src] to [t] *)
Inductive covers (i : info) (src : string) : tok -> tok -> Prop :=
| cov_dom0 s t : means_dom0 s -> means_dom0 (tok_str t) -> covers i src (TName s) t
| cov_name s t : ~ means_dom0 s -> same_qube i s (tok_str t) -> covers i src (TName s) t
| cov_any t : covers i src TWild t
| cov_admin t : means_dom0 (tok_str t) -> covers i src TAdmin t
| cov_anyvm t : ~ means_dom0 (tok_str t) -> covers i src TAny t
| cov_default : covers i src TDefault TDefault
| cov_type v t d : dget i (tok_str t) = Some d -> d_type d = v -> covers i src (TType v) t
| cov_tag v t d : dget i (tok_str t) = Some d -> In v (d_tags d) -> covers i src (TTag v) t
| cov_disp : covers i src TDisp TDisp
| cov_disptmpl v w t : disp_template i src t w -> same_qube i v w -> covers i src (TDispTmpl v) t
| cov_disptag v w t d : disp_template i src t w -> dget i w = Some d ->
    d_tmpl d = true -> In v (d_tags d) -> covers i src (TDispTag v) t.

Definition service_covers (pat : option string) (x : string) : Prop :=
  pat = None \/ pat = Some x.

(** A rule applies to a call *)
Definition caller_applies (r : rule) (q : request) : Prop :=
  service_covers (r_service r) (q_service q) /\
  service_covers (r_arg r) (q_arg q) /\
  covers (q_info q) (q_source q) (r_source r) (TName (q_source q)).
Definition applies (r : rule) (q : request) : Prop :=
  caller_applies r q /\ covers (q_info q) (q_source q) (r_target r) (q_target q).

(** [r] is the first rule of [rules] that applies to [q] *)
Definition first_applicable (rules : list rule) (q : request) (r : rule) : Prop :=
  exists l1 l2, rules = l1 ++ r :: l2 /\ (forall r', In r' l1 -> ~ applies r' q) /\ applies r q.
Definition none_applicable (rules : list rule) (q : request) : Prop :=
  forall r, In r rules -> ~ applies r q.

(** ** What an allow rule grants

    [grants i src t g]: designation [t] (the redirect or the requested target)
    of a call of [src] resolves to the concrete target [g]. *)
Inductive grants (i : info) (src : string) : tok -> string -> Prop :=
| gr_name s : exists_qube i s -> grants i src (TName s) s
| gr_admin : grants i src TAdmin "dom0"
| gr_tmpl v d : dget i v = Some d -> d_tmpl d = true ->
    grants i src (TDispTmpl v) ("@dispvm:" +++ v)
| gr_disp w d : dget i src = Some d -> d_ddisp d = Some w ->
    grants i src TDisp ("@dispvm:" +++ w).

(** The target can be reached without starting anything *)
Definition needs_no_start (i : info) (g : string) : Prop :=
  means_dom0 g \/
  (starts "@dispvm" g = false /\ exists d, dget i g = Some d /\ d_power d = "Running").

(** ** Well-formedness of the environment *)

(** default_dispvm properties refer to existing qubes with plain names *)
Definition wf_refs (i : info) : Prop :=
  forall k d t, dget i k = Some d -> d_ddisp d = Some t -> exists_qube i t /\ plain_name t = true.

(** A call target as accepted from the caller: an existing qube, a template for
    disposables, or one of the three keywords *)
Inductive call_target (i : info) : tok -> Prop :=
| ct_name s : exists_qube i s -> call_target i (TName s)
| ct_admin : call_target i TAdmin
| ct_default : call_target i TDefault
| ct_disp : call_target i TDisp
| ct_tmpl v d : dget i v = Some d -> d_tmpl d = true -> call_target i (TDispTmpl v).

(** The caller has a default disposable template if it asks for one *)
Definition dispvm_ready (q : request) : Prop :=
  q_target q = TDisp ->
  exists d t, dget (q_info q) (q_source q) = Some d /\ d_ddisp d = Some t.

(** Columns of a parsed rule *)
Definition wf_tok (c : ctx) (t : tok) : Prop := allowed_text c (tok_str t) /\
  match t with TName s => starts "@" s = false /\ s <> "*" | _ => True end.

(** disposables designated by the uuid of the template *)
Definition uuid_dispvm (t : tok) : Prop :=
  match t with TDispTmpl v => starts "uuid:" v = true | _ => False end.

(** A call as it reaches evaluation: consistent system description, target
    accepted from the caller, caller designated by a plain name or uuid *)
Record wf_call (q : request) : Prop := {
  wfc_info : wf_info (q_info q);
  wfc_refs : wf_refs (q_info q);
  wfc_target : call_target (q_info q) (q_target q);
  wfc_source : starts "@" (q_source q) = false
}.

(** Redirects that the grammar admits *)
Definition wf_redirect (t : tok) : Prop :=
  match t with
  | TName s => s <> "" /\ starts "@" s = false /\ s <> "*"
  | TAdmin | TDisp => True
  | TDispTmpl v => v <> "" /\ starts "@" v = false
  | _ => False
  end.
Definition wf_rule (r : rule) : Prop :=
  match r_action r with
  | Deny _ => True
  | Allow t _ _ _ => forall x, t = Some x -> wf_redirect x
  | Ask t d _ _ _ => (forall x, t = Some x -> wf_redirect x) /\
                     (forall x, d = Some x -> wf_redirect x)
  end.

(** the designation an allow or ask rule sends the call to *)
Definition sent_to (redirect : option tok) (q : request) : tok :=
  match redirect with Some t => t | None => q_target q end.

(** ** Choices of an ask rule *)

(** [lists i t x]: a rule whose target specification is [t] speaks about the
    dialog entry [x] (a qube name, @dispvm:NAME, @dispvm or @adminvm) *)
Inductive lists (i : info) : tok -> string -> Prop :=
| li_name s d : dget i s = Some d -> lists i (TName s) (d_name d)
| li_wild_name n d : dget i n = Some d -> starts "uuid:" n = false -> lists i TWild n
| li_wild_tmpl n d : dget i n = Some d -> starts "uuid:" n = false -> d_tmpl d = true ->
    lists i TWild ("@dispvm:" +++ n)
| li_wild_disp : lists i TWild "@dispvm"
| li_admin : lists i TAdmin "@adminvm"
| li_any_name n d : dget i n = Some d -> starts "uuid:" n = false -> ~ means_dom0 n -> lists i TAny n
| li_any_tmpl n d : dget i n = Some d -> starts "uuid:" n = false -> d_tmpl d = true ->
    lists i TAny ("@dispvm:" +++ n)
| li_any_disp : lists i TAny "@dispvm"
| li_type v n d : dget i n = Some d -> starts "uuid:" n = false -> d_type d = v -> lists i (TType v) n
| li_tag v n d : dget i n = Some d -> starts "uuid:" n = false -> In v (d_tags d) -> lists i (TTag v) n
| li_disp : lists i TDisp "@dispvm"
| li_disptmpl v d : dget i v = Some d -> d_tmpl d = true -> lists i (TDispTmpl v) ("@dispvm:" +++ d_name d)
| li_disptag v n d : dget i n = Some d -> starts "uuid:" n = false -> d_tmpl d = true ->
    In v (d_tags d) -> lists i (TDispTag v) ("@dispvm:" +++ n).

Definition redirect_of (r : rule) : option tok :=
  match r_action r with Deny _ => None | Allow t _ _ _ => t | Ask t _ _ _ _ => t end.
Definition target_spec (r : rule) : tok :=
  match redirect_of r with Some t => t | None => r_target r end.
Definition is_deny_rule (r : rule) : Prop := exists n, r_action r = Deny n.

(** rule [r] speaks about entry [x] for the caller of [q] *)
Definition speaks (r : rule) (q : request) (x : string) : Prop :=
  caller_applies r q /\ lists (q_info q) (target_spec r) x.

(** the first rule that speaks about [x] is not a deny rule *)
Definition entry_open (rules : list rule) (q : request) (x : string) : Prop :=
  exists l1 r l2, rules = l1 ++ r :: l2 /\ (forall r', In r' l1 -> ~ speaks r' q x) /\
    speaks r q x /\ ~ is_deny_rule r.

(** how an entry is presented: @dispvm becomes the caller's default disposable,
    @adminvm becomes dom0 *)
Inductive presented (q : request) : string -> string -> Prop :=
| pr_disp w d : dget (q_info q) (q_source q) = Some d -> d_ddisp d = Some w ->
    presented q "@dispvm" ("@dispvm:" +++ w)
| pr_admin : presented q "@adminvm" "dom0"
| pr_other x : x <> "@dispvm" -> x <> "@adminvm" -> presented q x x.

(** the qube behind an entry *)
Definition entry_qube (x : string) : string :=
  if starts "@dispvm:" x then sdrop 8 x else x.

Definition offered (rules : list rule) (q : request) (x : string) : Prop :=
  (exists y, entry_open rules q y /\ presented q y x) /\
  ~ same_qube (q_info q) (q_source q) x /\
  exists d, dget (q_info q) (entry_qube x) = Some d /\ d_internal d = false.

(** how a redirect or default target is shown in the dialog *)
Definition shown (t : tok) (x : string) : Prop :=
  (means_dom0 (tok_str t) /\ x = "dom0") \/ (~ means_dom0 (tok_str t) /\ x = tok_str t).

(** [x] is a choice of the dialog of ask rule with redirect [t] and autostart [a] *)
Definition choice (rules : list rule) (q : request) (t : option tok) (a : bool) (x : string) : Prop :=
  match t with Some t => shown t x | None => offered rules q x end /\
  (a = false -> needs_no_start (q_info q) x).

(** the choice meant by the default_target parameter *)
Definition default_choice (q : request) (dt : option tok) (x : string) : Prop :=
  match dt with
  | None => False
  | Some TDisp => exists d w, dget (q_info q) (q_source q) = Some d /\ d_ddisp d = Some w /\
                              x = "@dispvm:" +++ w
  | Some t => shown t x
  end.

(** ** The text of an allow answer

    [allow_answer q user g autostart lines]: [lines] are the lines of the answer
    that lets call [q] run as [user] in [g] *)
Definition user_field (u : option string) : string :=
  match u with None | Some "" => "DEFAULT" | Some s => s end.
Definition bool_field (b : bool) : string := if b then "True" else "False".
(** a relayed call also names the remote qube on whose behalf it is made *)
Definition source_lines (q : request) : list string :=
  if String.eqb (q_reqsrc q) "" then [] else ["policy_source=" +++ q_source q].

Inductive allow_answer (q : request) (user : option string) (g : string) (autostart : bool)
  : list string -> Prop :=
| aa_dom0 : means_dom0 g ->
    allow_answer q user g autostart
      ["user=" +++ user_field user; "result=allow"; "target=dom0";
       "autostart=" +++ bool_field autostart;
       "requested_target=" +++ tok_str (q_target q)]
| aa_disp w d u : g = "@dispvm:" +++ w -> dget (q_info q) w = Some d -> d_uuid d = Some u ->
    allow_answer q user g autostart
      (["user=" +++ user_field user; "result=allow"; "target=@dispvm:" +++ w;
        "target_uuid=@dispvm:uuid:" +++ u;
        "autostart=" +++ bool_field autostart;
        "requested_target=" +++ tok_str (q_target q)] ++ source_lines q)
| aa_qube d u : ~ means_dom0 g -> dget (q_info q) g = Some d -> d_type d <> "RemoteVM" ->
    d_uuid d = Some u ->
    allow_answer q user g autostart
      (["user=" +++ user_field user; "result=allow"; "target=" +++ g;
        "target_uuid=uuid:" +++ u;
        "autostart=" +++ bool_field autostart;
        "requested_target=" +++ tok_str (q_target q)] ++ source_lines q)
| aa_remote d relay transport rd u : ~ means_dom0 g -> dget (q_info q) g = Some d ->
    d_type d = "RemoteVM" ->
    d_relay d = Some relay -> relay <> "" -> d_transport d = Some transport -> transport <> "" ->
    dget (q_info q) relay = Some rd -> d_uuid rd = Some u ->
    allow_answer q user g autostart
      (["user=DEFAULT"; "result=allow"; "target=" +++ relay;
        "target_uuid=uuid:" +++ u;
        "autostart=" +++ bool_field autostart;
        "requested_target=" +++ tok_str (q_target q);
        "service=" +++ transport +++ "+" +++ tok_str (q_target q) +++ "+"
          +++ q_service q +++ q_arg q] ++ source_lines q).

(** ** Calls

    [call_of i source target service reqsrc q]: [q] is the call made by qube
    [source] (on behalf of remote qube [reqsrc] unless that is empty), with
    service text [service] and target text [target] *)
Inductive split_service_text : string -> string -> string -> Prop :=
| sst_arg s a : has_char "+" s = false -> split_service_text (s +++ "+" +++ a) s ("+" +++ a)
| sst_none s : has_char "+" s = false -> split_service_text s s "+".

Inductive caller_of (i : info) (source reqsrc : string) : string -> Prop :=
| co_direct : reqsrc = "" -> caller_of i source reqsrc source
| co_relayed d : reqsrc <> "" -> dget i reqsrc = Some d -> d_type d = "RemoteVM" ->
    d_relay d = Some source -> caller_of i source reqsrc reqsrc.

(** target texts and the call target they mean; texts not listed are refused *)
Inductive target_of (i : info) : string -> tok -> Prop :=
| to_empty : target_of i "" TDefault
| to_default : target_of i "@default" TDefault
| to_admin : target_of i "@adminvm" TAdmin
| to_disp : target_of i "@dispvm" TDisp
| to_tmpl v d : dget i v = Some d -> d_tmpl d = true -> target_of i ("@dispvm:" +++ v) (TDispTmpl v)
| to_name s : exists_qube i s -> target_of i s (TName s)
| to_unknown s : s <> "" -> starts "@" s = false -> s <> "*" -> ~ exists_qube i s ->
    target_of i s TDefault.

Record call_of (i : info) (source target service reqsrc : string) (q : request) : Prop := {
  cof_info : q_info q = i;
  cof_service : split_service_text service (q_service q) (q_arg q);
  cof_source : caller_of i source reqsrc (q_source q);
  cof_reqsrc : q_reqsrc q = reqsrc;
  cof_target : target_of i target (q_target q)
}.
