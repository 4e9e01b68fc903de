(** Independent specification of the rule line grammar. It refers to the data
    types of the model (tokens, rules) and to no function of it other than
    [tok_str], the text of a token. *)
From Coq Require Import String Ascii List Bool.
From Verif Require Import Base SysInfo Token Rule SpecPolicy.
Import ListNotations.
Open Scope string_scope.
Open Scope list_scope.

(** [fields s ws]: [ws] are the words of [s], separated by blanks *)
Inductive fields : string -> list string -> Prop :=
| fl_nil b : sforall is_space b = true -> fields b []
| fl_cons b w s ws : sforall is_space b = true -> w <> "" ->
    sforall (fun c => negb (is_space c)) w = true ->
    (s = "" \/ exists c s', s = String c s' /\ is_space c = true) ->
    fields s ws -> fields (b +++ w +++ s) (w :: ws).

(** letters, digits, plus, minus, dot, underscore *)
Definition service_char (c : ascii) : Prop :=
  let n := nat_of_ascii c in
  (65 <= n <= 90 \/ 97 <= n <= 122 \/ 48 <= n <= 57)%nat \/ In c ["+"; "-"; "."; "_"]%char.
Definition service_chars (s : string) : Prop := forall c, has_char c s = true -> service_char c.

Inductive service_field : string -> option string -> Prop :=
| sf_any : service_field "*" None
| sf_name s : s <> "*" -> service_chars s -> has_char "+" s = false -> service_field s (Some s).
Inductive argument_field : option string -> string -> option string -> Prop :=
| af_any sv : argument_field sv "*" None
| af_arg s a : service_chars ("+" +++ a) -> argument_field (Some s) ("+" +++ a) (Some ("+" +++ a)).

(** [token_field c s t]: text [s] in context [c] is token [t]; the token keeps
    its text, and plain texts are exactly the non-keyword ones *)
Definition token_field (c : ctx) (s : string) (t : tok) : Prop :=
  allowed_text c s /\ tok_str t = s /\
  (starts "@" s = false -> s <> "*" -> t = TName s) /\
  (forall n, t = TName n -> starts "@" s = false /\ s <> "*") /\
  (forall v, t = TDispTmpl v -> starts "@" v = false).

(** parameters: key=value with distinct keys *)
Definition param (ps : list string) (k v : string) : Prop := In (k +++ "=" +++ v) ps.
Record params_ok (known : list string) (ps : list string) : Prop := {
  po_shape : forall p, In p ps -> exists k v, p = k +++ "=" +++ v /\ In k known;
  po_once : forall l1 l2 l3 k v v', In k known ->
     ps <> l1 ++ (k +++ "=" +++ v) :: l2 ++ (k +++ "=" +++ v') :: l3
}.
Inductive yesno (ps : list string) (k : string) (dflt : bool) : bool -> Prop :=
| yn_dflt : (forall v, ~ param ps k v) -> yesno ps k dflt dflt
| yn_yes : param ps k "yes" -> yesno ps k dflt true
| yn_no : param ps k "no" -> yesno ps k dflt false.
Inductive opt_param (ps : list string) (k : string) : option string -> Prop :=
| op_none : (forall v, ~ param ps k v) -> opt_param ps k None
| op_some v : param ps k v -> opt_param ps k (Some v).
Inductive redirect_param (ps : list string) (k : string) : option tok -> Prop :=
| rp_none : (forall v, ~ param ps k v) -> redirect_param ps k None
| rp_some v t : param ps k v -> token_field CRedirect v t -> redirect_param ps k (Some t).

Inductive action_fields : string -> list string -> action -> Prop :=
| ac_deny ps n : params_ok ["notify"] ps -> yesno ps "notify" true n ->
    action_fields "deny" ps (Deny n)
| ac_allow ps t u n a : params_ok ["target"; "user"; "notify"; "autostart"] ps ->
    redirect_param ps "target" t -> opt_param ps "user" u ->
    yesno ps "notify" false n -> yesno ps "autostart" true a ->
    action_fields "allow" ps (Allow t u n a)
| ac_ask ps t d u n a : params_ok ["target"; "default_target"; "user"; "notify"; "autostart"] ps ->
    redirect_param ps "target" t -> redirect_param ps "default_target" d -> opt_param ps "user" u ->
    yesno ps "notify" false n -> yesno ps "autostart" true a ->
    action_fields "ask" ps (Ask t d u n a).

(** the rule a list of words denotes *)
Inductive rule_fields (file : string) : list string -> rule -> Prop :=
| rf_rule sv ar src tgt act ps osv oar tsrc ttgt a :
    service_field sv osv -> argument_field osv ar oar ->
    token_field CSource src tsrc -> token_field CTarget tgt ttgt ->
    action_fields act ps a ->
    (tgt = "@default" -> forall u n s, a <> Allow None u n s) ->
    rule_fields file (sv :: ar :: src :: tgt :: act :: ps) (mkRule osv oar tsrc ttgt a file).
