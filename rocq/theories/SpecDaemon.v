(** Specification vocabulary: names, the policy socket, the policy answer *)
From Coq Require Import String Ascii List Bool Arith ZArith.
From Verif Require Import Base SysInfo Token Rule Policy SpecPolicy.
Import ListNotations.
Open Scope string_scope.
Open Scope nat_scope.
Open Scope list_scope.

(** ** Names *)
Definition name_alphabet : string :=
  "abcdefghijklmnopqrstuvwxyzABCDEFGHIJKLMNOPQRSTUVWXYZ0123456789_-.".
(** [s] consists of letters of the alphabet and the characters of [extra] only *)
Definition spelled (extra s : string) : Prop :=
  forall c, has_char c s = true -> has_char c (name_alphabet +++ extra) = true.
(** [r] is [s] with every character outside the alphabet replaced by an underscore *)
Inductive cleaned (extra : string) : string -> string -> Prop :=
| cl_nil : cleaned extra "" ""
| cl_keep c s r : has_char c (name_alphabet +++ extra) = true -> cleaned extra s r ->
    cleaned extra (String c s) (String c r)
| cl_under c s r : has_char c (name_alphabet +++ extra) = false -> cleaned extra s r ->
    cleaned extra (String c s) (String "_" r).

(** ** Requests on the policy socket *)
Definition one_line (s : string) : Prop := has_char NL s = false.
Definition ascii_text (s : string) : Prop := forall c, has_char c s = true -> nat_of_ascii c < 128.
Definition no_nul (s : string) : Prop := has_char NUL s = false.

Definition required_names := ["source"; "intended_target"; "service_and_arg"].
Definition yes_no_names := ["just_evaluate"; "assume_yes_for_ask"].
Definition field_names := required_names ++ yes_no_names ++ ["requested_source"].

Definition field : Type := string * string.
Definition field_line (x : field) : string := fst x +++ "=" +++ snd x.

(** [carries text l]: [text] is the fields [l], one per line, closed by an empty
    line (what follows it is ignored) or by the end of the input *)
Inductive carries : string -> list field -> Prop :=
| car_end : carries "" []
| car_blank rest : carries (nl +++ rest) []
| car_last x : carries (field_line x) [x]
| car_more x text l : carries text l -> carries (field_line x +++ nl +++ text) (x :: l).

Definition valid_field (x : field) : Prop :=
  In (fst x) field_names /\ one_line (snd x) /\ ascii_text (snd x) /\
  (In (fst x) yes_no_names -> snd x = "yes" \/ snd x = "no").
(** every line is a distinct known field with a valid value and the required
    fields are present *)
Definition valid_request (l : list field) : Prop :=
  NoDup (map fst l) /\ (forall x, In x l -> valid_field x) /\
  (forall n, In n required_names -> In n (map fst l)).
Definition has_field (l : list field) (n v : string) : Prop := In (n, v) l.
Definition switched_on (l : list field) (n : string) : bool :=
  existsb (fun x => String.eqb (fst x) n && String.eqb (snd x) "yes") l.
(** an optional text field: empty when missing *)
Definition optional_field (l : list field) (n v : string) : Prop :=
  has_field l n v \/ (~ In n (map fst l) /\ v = "").

(** ** Requests to policy.EvalSimple and policy.EvalGUI

    The stream: service and argument, a space, the calling qube (and, in dom0,
    more words), a NUL byte, then the payload: source, NUL, target. The stream is
    received as [first] and then, piece by piece, [pieces]; the pieces split the
    payload anywhere. *)
Fixpoint concat_text (l : list string) : string :=
  match l with [] => "" | a :: l' => a +++ concat_text l' end.
Record eval_request (service first : string) (pieces : list string)
  (remote queried source target : string) : Prop := {
  er_stream : exists more, (more = "" \/ exists m, more = " " +++ m) /\ has_char NUL more = false /\
    first +++ concat_text pieces =
      service +++ "+" +++ queried +++ " " +++ remote +++ more +++ str1 NUL +++ source +++ str1 NUL +++ target;
  er_queried : queried <> "" /\ starts "+" queried = false /\ has_char " " queried = false /\ ascii_text queried;
  er_remote : has_char " " remote = false /\ has_char NUL remote = false /\ ascii_text remote;
  er_source : spelled "@" source /\ 1 <= String.length source <= 31;
  er_target : spelled "@" target /\ 1 <= String.length target <= 63
}.
(** the header of the stream is received in one piece *)
Definition header_complete (first : string) : Prop :=
  exists a b, first = a +++ " " +++ b /\ has_char " " a = false /\ has_char NUL b = true.
Definition tagged (i : info) (name tag : string) : Prop :=
  exists d, dget i name = Some d /\ In tag (d_tags d).

(** ** The parts of an allow answer, as the qube that receives them is to see them *)
Record granted_call := mkGranted {
  gc_user : string;
  gc_target : string;
  gc_uuid : option string;
  gc_requested : string;
  gc_autostart : bool;
  gc_service : option string;
  gc_source : option string
}.
Inductive granted (q : request) (user : option string) (g : string) (autostart : bool)
  : granted_call -> Prop :=
| gd_dom0 : means_dom0 g ->
    granted q user g autostart
      (mkGranted (user_field user) "dom0" None (tok_str (q_target q)) autostart None None)
| gd_disp w d u : g = "@dispvm:" +++ w -> dget (q_info q) w = Some d -> d_uuid d = Some u ->
    granted q user g autostart
      (mkGranted (user_field user) g (Some ("@dispvm:uuid:" +++ u)) (tok_str (q_target q)) autostart None
         (if String.eqb (q_reqsrc q) "" then None else Some (q_source q)))
| gd_qube d u : ~ means_dom0 g -> dget (q_info q) g = Some d -> d_type d <> "RemoteVM" ->
    d_uuid d = Some u ->
    granted q user g autostart
      (mkGranted (user_field user) g (Some ("uuid:" +++ u)) (tok_str (q_target q)) autostart None
         (if String.eqb (q_reqsrc q) "" then None else Some (q_source q)))
| gd_remote d relay transport rd u : ~ means_dom0 g -> dget (q_info q) g = Some d ->
    d_type d = "RemoteVM" ->
    d_relay d = Some relay -> relay <> "" -> d_transport d = Some transport -> transport <> "" ->
    dget (q_info q) relay = Some rd -> d_uuid rd = Some u ->
    granted q user g autostart
      (mkGranted "DEFAULT" relay (Some ("uuid:" +++ u)) (tok_str (q_target q)) autostart
         (Some (transport +++ "+" +++ tok_str (q_target q) +++ "+" +++ q_service q +++ q_arg q))
         (if String.eqb (q_reqsrc q) "" then None else Some (q_source q))).

(** every text in it fits on one line *)
Definition tidy (g : granted_call) : Prop :=
  let ok s := one_line s /\ no_nul s in
  let okopt o := match o with Some s => ok s | None => True end in
  ok (gc_user g) /\ ok (gc_target g) /\ okopt (gc_uuid g) /\ ok (gc_requested g) /\
  okopt (gc_service g) /\ okopt (gc_source g).
