(** Independent specification of the policy graph. *)
From Coq Require Import String Ascii List Bool.
From Verif Require Import Base SysInfo Token Rule Policy Graph SpecPolicy.
Import ListNotations.
Open Scope string_scope.
Open Scope list_scope.

(** One edge of the graph, as text *)
Definition q1 : string := str1 """"%char.
Definition edge (src dst label color : string) : string :=
  "  " +++ q1 +++ src +++ q1 +++ " -> " +++ q1 +++ dst +++ q1 +++ " [label=" +++ q1 +++ label +++ q1 +++ " color=" +++ color +++ "];" +++ nl.

(** One node: a keyword, or a qube with the color of its label *)
Definition node_text (i : info) (color : string -> string) (n l : string) : Prop :=
  (starts "@" n = true /\ l = "  " +++ q1 +++ n +++ q1 +++ " [style = dotted];" +++ nl) \/
  (starts "@" n = false /\ dget i n <> None /\ l = "  " +++ q1 +++ n +++ q1 +++ " [color = " +++ q1 +++ color n +++ q1 +++ ", penwidth = 3];" +++ nl).

(** [verdict rules q r x]: the policy lets the call through; [r] is the rule, [x] the
    outcome *)
Definition verdict (rules : list rule) (q : request) (r : rule) (x : resolution) : Prop :=
  find_matching_rule rules q = Ok r /\ evaluate rules q = Ok x.

(** where a rule sends a call: the target= of the rule, or the target asked for *)
Definition destination (r : rule) (q : request) : string := tok_str (sent_to (action_target (r_action r)) q).

(** The edge for a call that rule [r] lets through, under the name [name] of the service.
    None: the call is not in the graph (questions, without --include-ask). *)
Definition color_of (x : resolution) : string := match x with RAsk _ => "orange" | RAllow _ => "red" end.
Definition edge_text (a : gargs) (name src : string) (r : rule) (q : request) (x : resolution) : option string :=
  if g_full a then
    Some (edge src (destination r q)
           ((if g_skip a then "" else name +++ match r_arg r with Some arg => arg | None => "" end) +++ " " +++ action_str (r_action r))
           (color_of x))
  else match x with
       | RAsk _ => if g_ask a then Some (edge src (destination r q) (if g_skip a then "" else name) "orange") else None
       | RAllow _ => Some (edge src (destination r q) (if g_skip a then "" else name) "red")
       end.

(** A name that a caller can give: a qube by its name, the keywords, disposables by the
    name of their template *)
Definition is_name (i : info) (s : string) : Prop := exists_qube i s /\ starts "uuid" s = false.
Inductive call_text (i : info) : string -> Prop :=
| cx_name s : is_name i s -> call_text i s
| cx_disp : call_text i "@dispvm"
| cx_default : call_text i "@default"
| cx_tmpl s d : dget i s = Some d -> d_tmpl d = true -> starts "uuid:" s = false -> call_text i ("@dispvm:" +++ s).

(** what the rules mention *)
Definition mentions (rules : list rule) (sv ar : option string) : Prop := exists r, In r rules /\ r_service r = sv /\ r_arg r = ar.
