(** Specification vocabulary: running a service in a qube *)
From Coq Require Import String Ascii List Bool Arith ZArith.
From Verif Require Import Base ExecuteVm.
Import ListNotations.
Open Scope string_scope.
Open Scope list_scope.

(** A request to qubesd about the qube called [qube] *)
Definition ask (method qube payload : string) : action :=
  Qubesd (method +++ "+ dom0 name " +++ qube +++ str1 NUL +++ payload).
Definition plain (qube : string) : Prop := forall r, qube <> "@" +++ r.
Definition asks_for (method : string) (a : action) : Prop := exists rest, a = Qubesd (method +++ rest).

(** qubesd has created a disposable qube called [name] *)
Definition created (w : world) (by_uuid : bool) (name : string) : Prop :=
  w_create w = Some ("0" +++ str1 NUL +++ name) /\ has_char NUL name = false /\
  (by_uuid = true -> exists u, name = "uuid:" +++ u /\ String.length u = 36%nat).
(** qubesd has started the qube, or it was running *)
Definition started (w : world) : Prop :=
  exists r, w_start w = Some ("0" +++ str1 NUL +++ r) \/
            w_start w = Some ("2" +++ str1 NUL +++ "QubesVMNotHaltedError" +++ str1 NUL +++ r).
(** The qube that is to run the command *)
Definition to_run_in (w : world) (target : string) (by_uuid : bool) (name : string) : Prop :=
  (forall t, target <> "@dispvm:" +++ t) /\ name = target \/
  (exists t, target = "@dispvm:" +++ t) /\ created w by_uuid name.

Definition sends (tr : list action) : list string :=
  flat_map (fun a => match a with Send b => [b] | _ => [] end) tr.
(** The daemon of the target has answered the command: this port, in that domain *)
Definition answered_with (w : world) (type domain port : Z) : Prop :=
  exists more, w_answer w = Some (le32 type +++ le32 8 +++ le32 domain +++ le32 port +++ more).
