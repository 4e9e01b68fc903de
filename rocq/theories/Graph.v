(** qrexec-policy-graph: qrexec/tools/qrexec_policy_graph.py.

    Options as argparse leaves them. An empty list of --source, --target or --service is
    the same as no option. --output and --system-info (where the text goes to and where
    the description of the system comes from) are in GraphFile.v. Not modelled: the check
    of the texts of --source and --target. *)
From Coq Require Import String Ascii List Bool Arith.
From Verif Require Import Base SysInfo Token Rule Policy.
Import ListNotations.
Open Scope string_scope.
Open Scope list_scope.

Record gargs := mkArgs {
  g_ask : bool;                (* --include-ask *)
  g_sources : list string;     (* --source *)
  g_targets : list string;     (* --target *)
  g_services : list string;    (* --service *)
  g_skip : bool;               (* --skip-labels *)
  g_full : bool }.             (* --full-output *)

Definition quote : string := str1 """"%char.

(** An action: the rule that has matched, the request and the resolution. The service of a
    request is None if the tool looks at rules for all services. *)
Record gaction := mkAct { ga_rule : rule; ga_service : option string; ga_source : string; ga_target : string; ga_res : resolution }.
Definition is_ask (r : resolution) : bool := match r with RAsk _ => true | RAllow _ => false end.

(** handle_single_action 98-107: the label. [f"{None}"] is None. *)
Definition py_opt (o : option string) : string := match o with Some s => s | None => "None" end.
Definition service_label (a : gargs) (x : gaction) : string :=
  if g_skip a then ""
  else match r_arg (ga_rule x) with
       | Some arg => if g_full a then py_opt (ga_service x) +++ arg else py_opt (ga_service x)
       | None => py_opt (ga_service x)
       end.
(** 108-111 *)
Definition shown_target (x : gaction) : string :=
  match action_target (r_action (ga_rule x)) with Some t => tok_str t | None => ga_target x end.

(** 116-126. [color]: the label of a qube with 0x replaced. *)
Definition node_line (i : info) (color : string -> string) (node : string) : res string :=
  if starts "@" node then Ok ("  " +++ quote +++ node +++ quote +++ " [style = dotted];" +++ nl)
  else match dget i node with
       | Some _ => Ok ("  " +++ quote +++ node +++ quote +++ " [color = " +++ quote +++ color node +++ quote +++ ", penwidth = 3];" +++ nl)
       | None => Err EKey
       end.
Definition edge_line (src dst label color : string) : string :=
  "  " +++ quote +++ src +++ quote +++ " -> " +++ quote +++ dst +++ quote +++
  " [label=" +++ quote +++ label +++ quote +++ " color=" +++ color +++ "];" +++ nl.

(** handle_single_action 96-156 *)
Definition handle_single_action (i : info) (color : string -> string) (a : gargs) (x : gaction) : res (list string) :=
  let service := service_label a x in
  let target := shown_target x in
  if match g_targets a with [] => false | l => negb (smem target l) end then Ok []
  else
    do n1 <- node_line i color (ga_source x);
    do n2 <- node_line i color target;
    if g_full a then
      Ok [n1; n2; edge_line (ga_source x) target (service +++ " " +++ action_str (r_action (ga_rule x)))
                    (if is_ask (ga_res x) then "orange" else "red")]
    else if is_ask (ga_res x) then
      if g_ask a then Ok [n1; n2; edge_line (ga_source x) target service "orange"] else Ok []
    else Ok [n1; n2; edge_line (ga_source x) target service "red"].

(** main 193-212: names from the description of the system *)
Definition domain_names (i : info) : list string := filter (fun k => negb (starts "uuid" k)) (map fst i).
Definition template_names (i : info) : list string :=
  map fst (filter (fun kd : string * dom => negb (starts "uuid:" (fst kd)) && d_tmpl (snd kd)) i).
Definition graph_targets (i : info) : list string :=
  domain_names i ++ ["@dispvm"] ++ map (fun d => "@dispvm:" +++ d) (template_names i) ++ ["@default"].
Definition graph_sources (i : info) (a : gargs) : list string :=
  match g_sources a with [] => domain_names i | l => l end.

(** 218-229: the pairs of services and arguments; the set as a list without repetitions *)
Definition pair_dec (x y : option string * option string) : {x = y} + {x <> y}.
Proof. decide equality; decide equality; apply string_dec. Defined.
Definition named_service (s : string) : option string * option string :=
  match split1 "+" s with Some (sv, arg) => (Some sv, Some ("+" +++ arg)) | None => (Some s, None) end.
Definition graph_services (a : gargs) (rules : list rule) : list (option string * option string) :=
  nodup pair_dec (map (fun r => (r_service r, r_arg r)) rules ++ map named_service (g_services a)).
(** 230-232: sorted by the texts *)
Definition pair_leb (x y : option string * option string) : bool :=
  let t o := match o with Some s => s | None => "" end in
  if String.eqb (t (fst x)) (t (fst y)) then str_leb (t (snd x)) (t (snd y)) else str_leb (t (fst x)) (t (fst y)).
(** 233-238: None + "" is a TypeError *)
Definition skip_service (a : gargs) (p : option string * option string) : res bool :=
  match g_services a with
  | [] => Ok false
  | l => match fst p with
         | None => Err EType
         | Some s => Ok (negb (smem s l) && negb (smem (s +++ match snd p with Some x => x | None => "" end) l))
         end
  end.

(** 241-252: the request of one combination, as evaluated. A request whose service is None
    is matched by the rules for all services only. *)
Definition graph_request (i : info) (rules : list rule) (p : option string * option string) (source target : string)
  : res gaction :=
  let rs := match fst p with
            | None => filter (fun r => match r_service r with None => true | Some _ => false end) rules
            | Some _ => rules end in
  do q <- make_request i (match fst p with Some s => s | None => "" end)
            (match snd p with Some s => if String.eqb s "" then "+" else s | None => "+" end) source target "";
  do r <- find_matching_rule rs q;
  do x <- action_evaluate rs r q;
  Ok (mkAct r (fst p) (q_source q) (tok_str (q_target q)) x).

(** the lines of one combination; AccessDenied: nothing *)
Definition combination (i : info) (color : string -> string) (a : gargs) (rules : list rule)
  (p : option string * option string) (source target : string) : res (list string) :=
  match graph_request i rules p source target with
  | Err e => if is_access_denied e then Ok [] else Err e
  | Ok x => handle_single_action i color a x
  end.

(** for ... in ..., collecting; an exception ends the program *)
Fixpoint each {A B} (g : A -> res (list B)) (l : list A) : res (list B) :=
  match l with
  | [] => Ok []
  | x :: l' => do a <- g x; do b <- each g l'; Ok (a ++ b)
  end.
(** connections: a line is written once *)
Fixpoint once (seen l : list string) : list string :=
  match l with
  | [] => []
  | x :: l' => if smem x seen then once seen l' else x :: once (x :: seen) l'
  end.

(** main 158-268: the lines written *)
Definition graph_main (i : info) (color : string -> string) (a : gargs) (rules : list rule) : res (list string) :=
  do lines <- each (fun p =>
      do skip <- skip_service a p;
      if skip : bool then Ok []
      else each (fun s => each (fun t => combination i color a rules p s t) (graph_targets i)) (graph_sources i a))
    (sort_by pair_leb (graph_services a rules));
  Ok (("digraph g {" +++ nl) :: once [] lines ++ ["}" +++ nl]).
