(** Independent specification of the conversion of the old policy. *)
From Coq Require Import String Ascii List Bool Arith.
From Verif Require Import Base SysInfo Token Rule FileSys Loader LineLoader Convert.
Import ListNotations.
Open Scope string_scope.
Open Scope list_scope.

(** [a] is [b] with some elements left out *)
Inductive subseq {A} : list A -> list A -> Prop :=
| ss_nil : subseq [] []
| ss_skip x a b : subseq a b -> subseq a (x :: b)
| ss_keep x a b : subseq a b -> subseq (x :: a) (x :: b).

(** Rules of the old format among all rules of the policy: those in the files in the old
    format, [new] being the policy without them. A rule is known by its file and line. *)
Definition of_old_format (all new : list nrule) (r : nrule) : Prop :=
  In r all /\ (exists n, snd r = Some n /\ n <> 0) /\
  forall r', In r' new -> ~ (r_file (fst r') = r_file (fst r) /\ snd r' = snd r).
Definition services_of (all new : list nrule) (l : list (option string)) : Prop :=
  NoDup l /\ forall sv, In sv l <-> exists r, of_old_format all new r /\ r_service (fst r) = sv.

Definition service_dec (a b : option string) : {a = b} + {a <> b}.
Proof. decide equality. apply string_dec. Defined.
(** the rules for a service *)
Definition rules_for (sv : option string) (l : list nrule) : list nrule :=
  filter (fun r => if service_dec (r_service (fst r)) sv then true else false) l.

(** a rule that denies a service to all, but to dom0, whatever the argument *)
Definition denies_all (r : rule) : Prop :=
  (exists n, r_action r = Deny n) /\ r_source r = TAny /\ r_target r = TAny /\ r_arg r = None.

(** the rules that are written into a file of the new format *)
Definition saved (all new : list nrule) (services : list (option string)) (file : string) (rs : list nrule) : Prop :=
  In (file, rs) (rules_to_save all new services).

(** What becomes of a rule that is not in the new files *)
Inductive accounted (all new : list nrule) (services : list (option string)) (r : nrule) : Prop :=
(* it is written *)
| ac_saved file rs : saved all new services file rs -> In r rs -> accounted all new services r
(* the new files already have a rule for the service with the same text *)
| ac_there r' : In r' new -> r_service (fst r') = r_service (fst r) -> rule_str (fst r') = rule_str (fst r) -> accounted all new services r
(* a rule of the new files has the same file and line number: both include the same file *)
| ac_place r' : In r' new -> r_file (fst r') = r_file (fst r) -> snd r' = snd r -> accounted all new services r
(* it is, or comes after, an old rule that denies the service to all *)
| ac_denied r' l1 l2 : all = l1 ++ r' :: l2 -> of_old_format all new r' -> r_service (fst r') = r_service (fst r) -> denies_all (fst r') ->
    r' = r \/ In r l2 -> accounted all new services r
(* it is a second rule for an input device of a qube *)
| ac_input r' rs : saved all new services "50-config-input" rs -> In r' rs -> r_service (fst r') = r_service (fst r) ->
    tok_str (r_source (fst r')) = tok_str (r_source (fst r)) ->
    In (r_service (fst r)) [Some "qubes.InputKeyboard"; Some "qubes.InputMouse"; Some "qubes.InputTablet"] -> accounted all new services r.

(** ** Files *)
(** the states in which the tool can be stopped while it carries out a list of operations:
    between two of them, or while it writes a file, whatever part of the text is there *)
Inductive stopped : fs -> list op -> fs -> Prop :=
| st_here f ops : stopped f ops f
| st_writing f p c c' ops : stopped f (OWrite p c :: ops) (fset f p (NFile (Some c')))
| st_next f o ops f' : stopped (apply_op f o) ops f' -> stopped f (o :: ops) f'.

(** the names under which the tool puts a file aside *)
Inductive aside (p : path) : path -> Prop :=
| as_same : aside p p
| as_more d n suf : aside p (d ++ [n]) -> suf = ".bak" \/ suf = ".rpmsave" -> aside p (d ++ [n +++ suf]).

(** Everything that was there in f0 is still there in f, under its name or put aside, no two
    things at the same place. *)
Definition all_there (f0 f : fs) : Prop := exists m : path -> path,
  (forall p n, fget f0 p = Some n -> fget f (m p) = Some n) /\
  (forall p q, fget f0 p <> None -> fget f0 q <> None -> m p = m q -> p = q) /\
  (forall p, fget f0 p <> None -> aside p (m p)).
