(** VM tokens: qrexec/policy/parser.py 206-704 *)
From Coq Require Import String Ascii List Bool.
From Verif Require Import Base SysInfo.
Import ListNotations.
Open Scope string_scope.
Open Scope list_scope.

(** is_dom0, parser.py 239-244 *)
Definition ZERO_UUID := "uuid:00000000-0000-0000-0000-000000000000".
Definition is_dom0 (t : string) : bool :=
  String.eqb t "@adminvm" || String.eqb t "dom0" || String.eqb t ZERO_UUID.

(** info[str(k)]["uuid"] == u, KeyError -> False (parser.py 227-230, 232-235) *)
Definition uuid_is (i : info) (k u : string) : bool :=
  match dget i k with
  | Some d => match d_uuid d with Some v => String.eqb u v | None => false end
  | None => false
  end.

(** match_strings, parser.py 223-236 *)
Definition match_strings (i : info) (self other : string) : bool :=
  if starts "uuid:" self then
    if starts "uuid:" other then String.eqb self other
    else uuid_is i other (sdrop 5 self)
  else if starts "uuid:" other then uuid_is i self (sdrop 5 other)
  else String.eqb self other.

(** The token classes, parser.py 459-704. [TName] is an instance of the context
    class itself (Source, Target, Redirect or IntendedTarget): a plain name. *)
Inductive tok :=
| TName (s : string)
| TWild            (* WildcardVM      "*"             459 *)
| TAdmin           (* AdminVM         "@adminvm"      484 *)
| TAny             (* AnyVM           "@anyvm"        510 *)
| TDefault         (* DefaultVM       "@default"      534 *)
| TType (v : string)     (* TypeVM    "@type:"        545 *)
| TTag (v : string)      (* TagVM     "@tag:"         569 *)
| TDisp                  (* DispVM    "@dispvm"       593 *)
| TDispTmpl (v : string) (* DispVMTemplate "@dispvm:" 628 *)
| TDispTag (v : string). (* DispVMTag "@dispvm:@tag:" 670 *)

(** str(token): tokens are str instances holding the full text *)
Definition tok_str (t : tok) : string :=
  match t with
  | TName s => s
  | TWild => "*"
  | TAdmin => "@adminvm"
  | TAny => "@anyvm"
  | TDefault => "@default"
  | TType v => "@type:" +++ v
  | TTag v => "@tag:" +++ v
  | TDisp => "@dispvm"
  | TDispTmpl v => "@dispvm:" +++ v
  | TDispTag v => "@dispvm:@tag:" +++ v
  end.

(** Context classes on which the constructor is called *)
Inductive ctx := CSource | CTarget | CRedirect | CIntended | CDispTmpl.

Inductive kind := KWild | KAdmin | KAny | KDefault | KType | KTag | KDisp | KDispTmpl | KDispTag.

(** issubclass(token_cls, cls): the base classes listed at parser.py 459, 484,
    510, 534, 545, 569, 593, 628, 670 *)
Definition subclass (k : kind) (c : ctx) : bool :=
  match k, c with
  | KWild, (CSource | CTarget) => true
  | KAdmin, (CSource | CTarget | CRedirect | CIntended) => true
  | KAny, (CSource | CTarget) => true
  | KDefault, (CTarget | CIntended) => true
  | KType, (CSource | CTarget) => true
  | KTag, (CSource | CTarget) => true
  | KDisp, (CTarget | CRedirect | CIntended) => true
  | KDispTmpl, (CSource | CTarget | CRedirect | CIntended | CDispTmpl) => true
  | KDispTag, (CSource | CTarget) => true
  | _, _ => false
  end.

(** VMTokenMeta.exacts / prefixes in registration order, parser.py 208-220 *)
Definition exacts : list (string * kind) :=
  [("*", KWild); ("@adminvm", KAdmin); ("@anyvm", KAny); ("@default", KDefault);
   ("@dispvm", KDisp)].
Definition prefixes : list (string * kind) :=
  [("@type:", KType); ("@tag:", KTag); ("@dispvm:", KDispTmpl); ("@dispvm:@tag:", KDispTag)].

(** super().__new__(token_cls, token) followed by __init__ (326-343); for a
    prefixed class [v] is self.value, for an exact class it is unused *)
Definition instantiate (k : kind) (v : string) : tok :=
  match k with
  | KWild => TWild | KAdmin => TAdmin | KAny => TAny | KDefault => TDefault
  | KDisp => TDisp | KType => TType v | KTag => TTag v
  | KDispTmpl => TDispTmpl v | KDispTag => TDispTag v
  end.

(** first loop of VMToken.__new__, parser.py 289-296 *)
Fixpoint find_exact (c : ctx) (token : string) (l : list (string * kind)) : option tok :=
  match l with
  | [] => None
  | (e, k) :: l' =>
      if negb (subclass k c) then find_exact c token l'
      else if String.eqb token e then Some (instantiate k "")
      else find_exact c token l'
  end.

(** second loop, parser.py 299-315, and the final error 318-322 *)
Fixpoint find_prefix (c : ctx) (token : string) (l : list (string * kind)) : res tok :=
  match l with
  | [] => Err ESyntax
  | (p, k) :: l' =>
      if negb (subclass k c) then find_prefix c token l'
      else if starts p token then
        let value := sdrop (String.length p) token in
        if String.eqb value "" then Err ESyntax
        else if starts "@" value then find_prefix c token l'
        else Ok (instantiate k value)
      else find_prefix c token l'
  end.

(** VMToken.__new__, parser.py 268-322 (file name and line of the error message
    are not modelled) *)
Definition parse_tok (c : ctx) (token : string) : res tok :=
  if String.eqb token "" then Err ESyntax
  else if negb (starts "@" token || String.eqb token "*") then Ok (TName token)
  else match find_exact c token exacts with
       | Some t => Ok t
       | None => find_prefix c token prefixes
       end.

(** Redirect.__new__, parser.py 405-416: None stays None *)
Definition parse_redirect (v : option string) : res (option tok) :=
  match v with
  | None => Ok None
  | Some s => rmap Some (parse_tok CRedirect s)
  end.

(** DispVM.get_dispvm_template, parser.py 612-625 *)
Definition get_dispvm_template (i : info) (source : string) : res (option tok) :=
  match dget i source with
  | None => Ok None
  | Some d =>
      match d_ddisp d with
      | None => Ok None
      | Some t => rmap Some (parse_tok CDispTmpl ("@dispvm:" +++ t))
      end
  end.

(** match methods: VMToken 349-361 (also DefaultVM), WildcardVM 465-472,
    AdminVM 500-507, AnyVM 514-521, TypeVM 549-557, TagVM 573-581, DispVM
    597-604, DispVMTemplate 632-648, DispVMTag 674-696. A plain str argument is
    passed as [TName]; [src] is the keyword argument source. *)
Definition match_tok (i : info) (self other : tok) (src : option string) : res bool :=
  let o := tok_str other in
  match self with
  | TName _ | TDefault =>
      if is_dom0 (tok_str self) then Ok (is_dom0 o)
      else Ok (match_strings i (tok_str self) o)
  | TWild => Ok true
  | TAdmin => Ok (is_dom0 o)
  | TAny => Ok (negb (is_dom0 o))
  | TType v =>
      match dget i o with Some d => Ok (String.eqb v (d_type d)) | None => Ok false end
  | TTag v =>
      match dget i o with Some d => Ok (smem v (d_tags d)) | None => Ok false end
  | TDisp => Ok (String.eqb "@dispvm" o)
  | TDispTmpl v =>
      match other, src with
      | TDisp, Some s =>
          do t <- get_dispvm_template i s;
          match t with
          | None => Err EAttr          (* None.startswith *)
          | Some t => Ok (match_strings i (tok_str self) (tok_str t))
          end
      | TDispTmpl w, _ => Ok (match_strings i v w)
      | _, _ => Ok false
      end
  | TDispTag v =>
      do o' <- match other with
               | TDisp => match src with
                          | None => Err EAssert
                          | Some s => get_dispvm_template i s
                          end
               | _ => Ok (Some other)
               end;
      match o' with
      | Some (TDispTmpl w) =>
          do d <- dgetE i w;
          Ok (d_tmpl d && smem v (d_tags d))
      | _ => Ok false
      end
  end.

(** IntendedTarget.verify 422-453, AdminVM 492, DefaultVM 541, DispVM 609,
    DispVMTemplate 658-667. Tokens that are no IntendedTarget have no verify. *)
Definition verify (i : info) (t : tok) : res tok :=
  match t with
  | TName s => if dmem i s then Ok t else Ok TDefault
  | TAdmin | TDefault | TDisp => Ok t
  | TDispTmpl v =>
      match dget i v with
      | None => Err (EAccessDenied true)
      | Some d => if d_tmpl d then Ok t else Err (EAccessDenied true)
      end
  | _ => Err EAttr
  end.

(** the loops over system_info["domains"].items() in the expand methods: skip
    uuid keys, concatenate what [f] yields *)
Fixpoint expand_domains (f : string -> dom -> res (list string)) (l : info) : res (list string) :=
  match l with
  | [] => Ok []
  | (name, d) :: l' =>
      if starts "uuid:" name then expand_domains f l'
      else do a <- f name d; do b <- expand_domains f l'; Ok (a ++ b)
  end.

(** str(IntendedTarget(name)), str(DispVMTemplate("@dispvm:" + name)) *)
Definition yield_intended (name : string) : res (list string) :=
  rmap (fun t => [tok_str t]) (parse_tok CIntended name).
Definition yield_dispvm (name : string) : res (list string) :=
  rmap (fun t => [tok_str t]) (parse_tok CDispTmpl ("@dispvm:" +++ name)).

(** expand methods: _BaseTarget 388-395, WildcardVM 474-481, AdminVM 489,
    AnyVM 523-531, DefaultVM 538, TypeVM 559-566, TagVM 583-590, DispVM 606,
    DispVMTemplate 650-656, DispVMTag 698-704. The generator is modelled by the
    list of its yields (an exception raised by the generator itself is never
    caught by its consumer, parser.py 1886-1900). *)
Definition expand (i : info) (t : tok) : res (list string) :=
  match t with
  | TName s =>
      if dmem i s then do n <- uuid_to_name i s; yield_intended n else Ok []
  | TWild =>
      do l <- expand_domains (fun name d =>
                do a <- yield_intended name;
                do b <- (if d_tmpl d then yield_dispvm name else Ok []);
                Ok (a ++ b)) i;
      Ok (l ++ ["@dispvm"])
  | TAdmin => Ok ["@adminvm"]
  | TAny =>
      do l <- expand_domains (fun name d =>
                do a <- (if is_dom0 name then Ok [] else yield_intended name);
                do b <- (if d_tmpl d then yield_dispvm name else Ok []);
                Ok (a ++ b)) i;
      Ok (l ++ ["@dispvm"])
  | TDefault => Ok []
  | TType v =>
      expand_domains (fun name d =>
        if String.eqb (d_type d) v then yield_intended name else Ok []) i
  | TTag v =>
      expand_domains (fun name d =>
        if smem v (d_tags d) then yield_intended name else Ok []) i
  | TDisp => Ok ["@dispvm"]
  | TDispTmpl v =>
      do d <- dgetE i v;
      if d_tmpl d then rmap (fun s => [s]) (uuid_to_name i (tok_str t)) else Ok []
  | TDispTag v =>
      expand_domains (fun name d =>
        if smem v (d_tags d) && d_tmpl d then yield_dispvm name else Ok []) i
  end.
