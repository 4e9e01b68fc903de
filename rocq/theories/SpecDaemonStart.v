(** The start of qrexec-daemon: its command line, numbers, and what has to be done first *)
From Coq Require Import String Ascii List Bool Arith ZArith.
From Verif Require Import Base SpecClient DaemonStart.
Import ListNotations.
Open Scope string_scope.
Open Scope list_scope.
Open Scope Z_scope.

(** ** Options *)
Inductive d_opt := DHelp | DQuiet | DDir (path : string) | DPolicy (path : string) | DDirect | DUuid (uuid : string).
Definition d_spelled (o : d_opt) (ws : list string) : Prop :=
  match o with
  | DHelp => flag_words (Some "h") (Some "help") ws
  | DQuiet => flag_words (Some "q") (Some "quiet") ws
  | DDir p => value_words None (Some "socket-dir") p ws
  | DPolicy p => value_words (Some "p") (Some "policy-program") p ws
  | DDirect => flag_words (Some "D") (Some "direct") ws
  | DUuid u => value_words (Some "u") (Some "uuid") u ws
  end.
Definition of_dir (o : d_opt) : option string := match o with DDir p => Some p | _ => None end.
Definition of_policy (o : d_opt) : option string := match o with DPolicy p => Some p | _ => None end.
Definition of_uuid (o : d_opt) : option string := match o with DUuid u => Some u | _ => None end.
Definition d_names : list string := ["help"; "quiet"; "socket-dir"; "policy-program"; "direct"; "uuid"].

(** ** Numbers *)
Definition white (c : ascii) : Prop := (nat_of_ascii c = 32 \/ 9 <= nat_of_ascii c <= 13)%nat.
Definition a_digit (c : ascii) : Prop := (48 <= nat_of_ascii c <= 57)%nat.
Inductive sign : string -> Z -> Prop := sg_none : sign "" 1 | sg_plus : sign "+" 1 | sg_minus : sign "-" (-1).
(** what a text means: white space, a sign, digits, and something else that is ignored *)
Inductive reads : string -> Z -> Prop :=
| rd_number w s k d n rest : (forall c, has_char c w = true -> white c) -> sign s k -> d <> "" -> numeral 10 d n ->
    (forall c r, rest = String c r -> ~ a_digit c) -> reads (w +++ s +++ d +++ rest) (k * n)
| rd_nothing w s k rest : (forall c, has_char c w = true -> white c) -> sign s k ->
    (forall c r, rest = String c r -> ~ a_digit c /\ (s = "" -> c <> "+"%char /\ c <> "-"%char /\ ~ white c)) -> reads (w +++ s +++ rest) 0.

(** numbers outside the range of a long are replaced by the nearest one within; of that the lowest
    32 bits are taken, with a sign *)
Definition in_long (z : Z) : Z := if z <? - 2 ^ 63 then - 2 ^ 63 else if 2 ^ 63 <=? z then 2 ^ 63 - 1 else z.
Definition as_int (z n : Z) : Prop := - 2 ^ 31 <= n < 2 ^ 31 /\ exists q, n = in_long z + q * 2 ^ 32.

(** ** Steps *)
Definition all_steps : list stage := [Chdir; LogFile; Redirect; Session; Connect; Hello; Group; User; Sockets; Signals; Report].
(** the steps that do not apply when not started in the background *)
Definition direct_steps : list stage := [Chdir; Connect; Hello; Group; User; Sockets; Signals].
