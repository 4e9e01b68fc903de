(** Independent specification of the notifications shown to the user *)
From Coq Require Import String Ascii List Bool.
From Verif Require Import Base SysInfo Token Rule PolicyExec.
Import ListNotations.
Open Scope string_scope.
Open Scope list_scope.

(** the GUI domain of a qube *)
Definition gui_qube (i : info) (qube g : string) : Prop :=
  exists d, dget i qube = Some d /\ d_guivm d = Some g /\ g <> "".

(** the notify parameter of a rule *)
Definition rule_notify (r : rule) : bool :=
  match r_action r with Deny n => n | Allow _ _ n _ => n | Ask _ _ _ n _ => n end.

(** the notifications among the messages sent to the GUI domain *)
Definition is_notice (e : event) : bool := match e with EvNotify _ _ _ _ _ _ => true | _ => false end.
Definition notices (evs : list event) : list event := filter is_notice evs.

(** [told i qube wanted what l]: [l] is one notification with the content [what], sent
    to the GUI domain of [qube], if it is wanted and there is such a domain; else none *)
Inductive told (i : info) (qube : string) (wanted : bool) (what : string -> event) : list event -> Prop :=
| told_one g : wanted = true -> gui_qube i qube g -> told i qube wanted what [what g]
| told_unwanted : wanted = false -> told i qube wanted what []
| told_nobody : (forall g, ~ gui_qube i qube g) -> told i qube wanted what [].
