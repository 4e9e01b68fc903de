(** Who holds which end of a connection *)
From Coq Require Import List Bool Arith.
From Verif Require Import Fds.
Import ListNotations.

(** the process with table [t] holds [f] *)
Definition holds (t : table) (f : file) : Prop := exists n c, t n = Some (mkEntry f c).
(** descriptor [n] is [f], and stays so when a program is executed *)
Definition is_file (t : table) (n : nat) (f : file) : Prop := t n = Some (mkEntry f false).
(** standard input, output and error are open, as in every program that was started properly *)
Definition standard (t : table) (i o e : file) : Prop := is_file t 0 i /\ is_file t 1 o /\ is_file t 2 e.
(** connections from number [k] on are new *)
Definition unused (t : table) (k : nat) : Prop := forall n k' s c, k <= k' -> t n <> Some (mkEntry (End k' s) c).
(** nothing but the three *)
Definition only_standard (t : table) (i o e : file) : Prop := standard t i o e /\ forall n, 3 <= n -> t n = None.
(** on kernels without close_range, only descriptors below 256 are closed: the others must be
    closed on execution *)
Definition closable (range : bool) (t : table) : Prop := range = true \/ forall n e, 256 <= n -> t n = Some e -> e_cloexec e = true.
