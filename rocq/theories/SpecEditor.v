(** What the tools for administrators are for. *)
From Coq Require Import String Ascii List Bool.
From Verif Require Import Base FileSys Rule SpecLoader SpecAdmin Lint Editor.
Import ListNotations.
Open Scope string_scope.
Open Scope list_scope.

(** the file that an argument of the tools names: FILE or include/FILE *)
Inductive names_file : string -> bool -> string -> Prop :=
| nf_policy n : has_char "/" n = false -> n <> "" -> names_file n false n
| nf_include n : has_char "/" n = false -> n <> "" -> names_file ("include/" +++ n) true n.
(** for the editor the extension may be given *)
Definition edits_file (arg : string) (inc : bool) (name : string) : Prop :=
  exists n, names_file arg inc n /\ (n = name \/ n = name +++ ".policy").

(** what is in the file that is being edited, after [k] runs of the editor *)
Fixpoint after (edits : nat -> editor) (start : string) (k : nat) : option string :=
  match k with
  | 0 => Some start
  | S k' => snd (edits k' (after edits start k'))
  end.
(** the [k]-th run (from 0) ended well *)
Definition went_well (edits : nat -> editor) (start : string) (k : nat) : Prop := fst (edits k (after edits start k)) = true.
(** it left a text in which the linter found nothing, or something *)
Definition left_clean (inc : bool) edits start k : Prop :=
  went_well edits start k /\ exists t, after edits start (S k) = Some t /\ lint_text inc t = Ok [].
Definition left_faulty (inc : bool) edits start k : Prop :=
  went_well edits start k /\ exists t errs, after edits start (S k) = Some t /\ lint_text inc t = Ok errs /\ errs <> [].

(** the file has not changed between two states: it is not there in both, or its digest is the
    same *)
Inductive unchanged (sha256 : string -> string) (f0 f1 : fs) (p : path) : Prop :=
| un_absent : ~ regular f0 p -> fget f1 p = None -> unchanged sha256 f0 f1 p
| un_same c c1 : has_content f0 p c -> has_content f1 p c1 -> sha256 c1 = sha256 c -> unchanged sha256 f0 f1 p.
(** what the editor is started with *)
Definition starts_with (f0 : fs) (p : path) (start : string) : Prop :=
  has_content f0 p start \/ ~ regular f0 p /\ start = "".
(** without an argument the file of the user is edited *)
Definition argument (arg : option string) : string := match arg with Some a => a | None => "30-user" end.
(** in the answers there are [n] times e, for another run, before any q; other answers do not count *)
Fixpoint asks_again (n : nat) (replies : list string) : Prop :=
  match replies with
  | [] => n = 0
  | r :: rs => if String.eqb r "e" then match n with 0 => True | S m => asks_again m rs end
               else if String.eqb r "q" then n = 0 else n = 0 \/ asks_again n rs
  end.
