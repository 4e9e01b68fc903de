(** Independent specification of local sockets *)
From Coq Require Import String Ascii List Bool Arith.
From Verif Require Import Base UnixSocket.
Import ListNotations.
Open Scope string_scope.
Open Scope list_scope.

(** [leads fs k p n]: under the name [p] the server [n] is found, after following [k] links *)
Inductive leads (fs : names) : nat -> string -> nat -> Prop :=
| leads_here p n : fs p = Some (Socket n) -> leads fs 0 p n
| leads_link p to k n : fs p = Some (Link ("/" +++ to)) -> leads fs k ("/" +++ to) n -> leads fs (S k) p n
| leads_beside d x to k n : fs (d +++ "/" +++ x) = Some (Link to) -> (forall a b, x <> a +++ "/" +++ b) -> starts "/" to = false ->
    leads fs k (d +++ "/" +++ to) n -> leads fs (S k) (d +++ "/" +++ x) n
| leads_plain x to k n : fs x = Some (Link to) -> (forall a b, x <> a +++ "/" +++ b) -> starts "/" to = false ->
    leads fs k to n -> leads fs (S k) x n.

(** a directory that does not exist yet, nor anything below it *)
Definition new_dir (fs : names) (d : string) : Prop := fs d = None /\ forall x, fs (d +++ "/" +++ x) = None.
(** the two agree but for the directory [d] and what is in it *)
Definition same_but (d : string) (fs fs' : names) : Prop := forall p, p <> d -> (forall x, p <> d +++ "/" +++ x) -> fs p = fs' p.

(** the user of an event, and the server started last by a user and not ended since *)
Definition who (e : happens) : string := match e with Starts _ _ u => u | Ends u => u end.
Definition started_last (es : list happens) (u : string) (n : nat) : Prop :=
  exists a b, es = a ++ Starts true n u :: b /\ forall e, In e b -> who e <> u.

(** One command as the agent hands it over: its length with the NUL byte at its end, then the
    command line itself *)
From Verif Require Import Sanitize Exec.
From Coq Require Import ZArith.
Definition handed_over (len : Z) (data text : string) : Prop :=
  has_char NUL text = false /\ (exists rest, data = text +++ str1 NUL +++ rest) /\
  (len = Z.of_nat (String.length text) + 1)%Z /\ (len <= 2147483647)%Z.
