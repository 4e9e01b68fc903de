(** Rules and actions: qrexec/policy/parser.py 101-203, 1048-1166, 1235-1256,
    1344-1600 (evaluation of actions is in Policy.v) *)
From Coq Require Import String Ascii List Bool Arith.
From Verif Require Import Base SysInfo Token.
Import ListNotations.
Open Scope string_scope.
Open Scope nat_scope.
Open Scope list_scope.

(** ** Character classes *)
Definition in_range (lo hi : nat) (c : ascii) : bool :=
  (lo <=? nat_of_ascii c) && (nat_of_ascii c <=? hi).
Definition is_lower (c : ascii) := in_range 97 122 c.
Definition is_upper (c : ascii) := in_range 65 90 c.
Definition is_digit (c : ascii) := in_range 48 57 c.
Definition is_char (d c : ascii) := Ascii.eqb d c.

(** RPCNAME_ALLOWED_CHARSET, qrexec/__init__.py 47-49 *)
Definition rpcname_char (c : ascii) : bool :=
  is_upper c || is_lower c || is_digit c || is_char "+" c || is_char "-" c
  || is_char "." c || is_char "_" c.

(** get_invalid_characters, parser.py 124-133; only emptiness of the result is
    used by the code, so the model is the boolean "nothing invalid" *)
Definition valid_chars (s : string) : bool := sforall rpcname_char s.
Definition valid_chars_no_plus (s : string) : bool :=
  sforall (fun c => rpcname_char c && negb (is_char "+" c)) s.

(** parse_service_and_argument, parser.py 101-121 (for a str argument) *)
Definition parse_service_and_argument (rpcname no_arg : string) : string * string :=
  match split1 "+" rpcname with
  | Some (s, a) => (s, "+" +++ a)
  | None => (rpcname, no_arg)
  end.

(** validate_service_and_argument, parser.py 136-203; [None] is Python's None *)
Definition star_to_none (x : option string) : option string :=
  match x with Some s => if String.eqb s "*" then None else Some s | None => None end.
Definition validate_service_and_argument (service argument : option string)
  : res (option string * option string) :=
  let service := star_to_none service in
  do _ <- match service with
          | Some s => if valid_chars_no_plus s then Ok tt else Err ESyntax
          | None => Ok tt
          end;
  let argument := star_to_none argument in
  do _ <- match argument with
          | None => Ok tt
          | Some a =>
              if negb (valid_chars a) then Err ESyntax
              else if negb (starts "+" a) then Err ESyntax
              else match service with None => Err ESyntax | Some _ => Ok tt end
          end;
  Ok (service, argument).

(** ** Actions: Deny 1112-1116, Allow 1142-1164, Ask 1235-1256 *)
Inductive action :=
| Deny (notify : bool)
| Allow (target : option tok) (user : option string) (notify autostart : bool)
| Ask (target default_target : option tok) (user : option string) (notify autostart : bool).

Record rule := mkRule {
  r_service : option string;
  r_arg : option string;
  r_source : tok;
  r_target : tok;
  r_action : action;
  r_file : string
}.

(** action.target: None for Deny (ActionType.__init__, 1062-1065) *)
Definition action_target (a : action) : option tok :=
  match a with Deny _ => None | Allow t _ _ _ => t | Ask t _ _ _ _ => t end.
Definition action_notify (a : action) : bool :=
  match a with Deny n => n | Allow _ _ n _ => n | Ask _ _ _ n _ => n end.
Definition is_deny (a : action) : bool := match a with Deny _ => true | _ => false end.

(** the loop over params, parser.py 1408-1424 *)
Fixpoint collect_params (params : list string) (kwds : list (string * string))
  : res (list (string * string)) :=
  match params with
  | [] => Ok kwds
  | p :: params' =>
      match split1 "=" p with
      | None => Err ESyntax
      | Some (key, value) =>
          if dmem kwds key then Err ESyntax
          else collect_params params' (dset kwds key value)
      end
  end.

(** boolean parameters, parser.py 1427-1437 *)
Definition bool_param (kwds : list (string * string)) (key : string) (dflt : bool) : res bool :=
  match dget kwds key with
  | None => Ok dflt
  | Some v => if String.eqb v "yes" then Ok true
              else if String.eqb v "no" then Ok false
              else Err ESyntax
  end.

(** actiontype(rule=self, **kwds): an unexpected keyword is a TypeError, turned
    into PolicySyntaxError at 1442-1449; the accepted keywords are those of the
    constructors 1114, 1149-1157, 1237-1246 *)
Definition known_params (action : string) : option (list string) :=
  if String.eqb action "allow" then Some ["target"; "user"; "notify"; "autostart"]
  else if String.eqb action "deny" then Some ["notify"]
  else if String.eqb action "ask" then Some ["target"; "default_target"; "user"; "notify"; "autostart"]
  else None.

Definition make_action (act : string) (kwds : list (string * string)) : res action :=
  match known_params act with
  | None => Err ESyntax      (* Action[action] KeyError, 1400-1405 *)
  | Some known =>
      do notify <- bool_param kwds "notify" (String.eqb act "deny");
      do autostart <- bool_param kwds "autostart" true;
      if negb (forallb (fun kv => smem (fst kv) known) kwds) then Err ESyntax
      else if String.eqb act "deny" then Ok (Deny notify)
      else
        do target <- parse_redirect (dget kwds "target");
        if String.eqb act "allow" then Ok (Allow target (dget kwds "user") notify autostart)
        else
          do default_target <- parse_redirect (dget kwds "default_target");
          Ok (Ask target default_target (dget kwds "user") notify autostart)
  end.

(** Rule.__init__, parser.py 1365-1458 *)
Definition make_rule (service argument : option string) (source target act : string)
  (params : list string) (filepath : string) : res rule :=
  do sa <- validate_service_and_argument service argument;
  do src <- parse_tok CSource source;
  do tgt <- parse_tok CTarget target;
  match known_params act with
  | None => Err ESyntax
  | Some _ =>
      do kwds <- collect_params params [];
      do a <- make_action act kwds;
      match tgt, a with
      | TDefault, Allow None _ _ _ => Err ESyntax
      | _, _ => Ok (mkRule (fst sa) (snd sa) src tgt a filepath)
      end
  end.

(** Rule.from_line, parser.py 1483-1516 *)
Definition from_line (line filepath : string) : res rule :=
  match split_ws line with
  | service :: argument :: source :: target :: act :: params =>
      make_rule (Some service) (Some argument) source target act params filepath
  | _ => Err ESyntax
  end.

(** Rule.from_line_service, parser.py 1519-1562 *)
Definition from_line_service (service argument : option string) (line filepath : string) : res rule :=
  match split_ws line with
  | source :: target :: action_and_params =>
      match flat_map (split_all ",") action_and_params with
      | act :: params => make_rule service argument source target act params filepath
      | [] => Err ESyntax
      end
  | _ => Err ESyntax
  end.

(** ** Printing: Deny.__str__ 1121, Allow.__str__ 1171-1177, Ask.__str__
    1263-1271, Rule.__str__ 1473-1480 *)
Definition opt_part (key : string) (v : option string) : string :=
  match v with
  | Some s => if String.eqb s "" then "" else " " +++ key +++ "=" +++ s
  | None => ""
  end.
Definition action_str (a : action) : string :=
  match a with
  | Deny _ => "deny"
  | Allow t u _ _ => "allow" +++ opt_part "target" (option_map tok_str t) +++ opt_part "user" u
  | Ask t d u _ _ => "ask" +++ opt_part "target" (option_map tok_str t)
                       +++ opt_part "default_target" (option_map tok_str d) +++ opt_part "user" u
  end.
Definition tab : string := str1 TAB.
Definition rule_str (r : rule) : string :=
  (match r_service r with Some s => s | None => "None" end) +++ tab +++
  (match r_arg r with
   | Some a => if String.eqb a "" then "*" else a
   | None => "*" end) +++ tab +++
  tok_str (r_source r) +++ tab +++ tok_str (r_target r) +++ tab +++ action_str (r_action r).

(** ** Requests and matching *)

(** Request, parser.py 964-1040: principal fields; the resolution classes are
    chosen in PolicyExec.v *)
Record request := mkRequest {
  q_service : string;
  q_arg : string;
  q_source : string;          (* the effective source *)
  q_target : tok;
  q_reqsrc : string;          (* requested_source, "" for None or "" *)
  q_relay : option string;
  q_info : info
}.

(** opt == x, None being the wildcard (parser.py 1594-1595) *)
Definition opt_match (pat : option string) (x : string) : bool :=
  match pat with None => true | Some s => String.eqb s x end.

(** Rule.is_match_but_target, parser.py 1577-1600 ([and] short-circuits) *)
Definition is_match_but_target (r : rule) (q : request) : res bool :=
  if negb (opt_match (r_service r) (q_service q)) then Ok false
  else if negb (opt_match (r_arg r) (q_arg q)) then Ok false
  else match_tok (q_info q) (r_source r) (TName (q_source q)) None.

(** Rule.is_match, parser.py 1564-1575 *)
Definition is_match (r : rule) (q : request) : res bool :=
  do b <- is_match_but_target r q;
  if b then match_tok (q_info q) (r_target r) (q_target q) (Some (q_source q)) else Ok false.
