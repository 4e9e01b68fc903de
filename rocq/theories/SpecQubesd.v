(** What an answer of qubesd says *)
From Coq Require Import String Ascii List NArith.
From Verif Require Import Base Json SpecJson Server SpecServer SysInfo.
From Verif Require SpecExec.
Import ListNotations.
Open Scope string_scope.
Open Scope list_scope.

(** there is no member of this name *)
Definition omits (v : json) (key : string) : Prop := forall x, ~ gives v key x.
(** a text that may be null or missing *)
Definition maybe_text (v : json) (key : string) (o : option string) : Prop :=
  match o with Some s => gives_text v key s | None => gives v key JNull \/ omits v key end.
Definition flag (b : bool) : json := if b then JTrue else JFalse.

(** [v] is the description of a domain *)
Record entry (v : json) (d : dom) : Prop := {
  en_object : exists l, v = JDict l;
  en_uuid : match d_uuid d with Some u => gives_text v "uuid" u | None => omits v "uuid" end;
  en_type : gives_text v "type" (d_type d);
  en_tags : exists l, gives v "tags" (JList l) /\ Forall2 (fun x t => exists u, x = JStr u /\ says u t) l (d_tags d);
  en_tmpl : gives v "template_for_dispvms" (flag (d_tmpl d));
  en_ddisp : maybe_text v "default_dispvm" (d_ddisp d);
  en_power : gives_text v "power_state" (d_power d);
  en_internal : gives v "internal" (flag (d_internal d)) \/ (omits v "internal" /\ d_internal d = false);
  en_guivm : maybe_text v "guivm" (d_guivm d);
  en_relay : maybe_text v "relayvm" (d_relay d);
  en_transport : maybe_text v "transport_rpc" (d_transport d)
}.
(** [v] is the description of a system with exactly these domains, each with its name *)
Record describes (v : json) (doms : list (string * dom)) : Prop := {
  de_once : NoDup (map fst doms);
  de_domains : exists l, gives v "domains" (JDict l) /\
     (forall k x, In (k, x) l -> exists n d, In (n, d) doms /\ says k n) /\
     (forall n d, In (n, d) doms -> exists x, gives (JDict l) n x /\ entry x d)
}.
(** domains have distinct plain names, and distinct uuids *)
Record sensible (doms : list (string * dom)) : Prop := {
  se_plain : forall n d, In (n, d) doms -> n <> "" /\ n <> "*" /\ starts "@" n = false /\ starts "uuid:" n = false;
  se_uuids : forall n1 d1 n2 d2 u, In (n1, d1) doms -> In (n2, d2) doms ->
     d_uuid d1 = Some u -> d_uuid d2 = Some u -> n1 = n2
}.
(** [x] is the name of a domain, or "uuid:" and its uuid *)
Definition means (doms : list (string * dom)) (x n : string) (d : dom) : Prop :=
  In (n, d) doms /\ (x = n \/ exists u, d_uuid d = Some u /\ x = "uuid:" +++ u).

(** the same description, with the name filled in *)
Definition named (n : string) (d d' : dom) : Prop :=
  d_name d' = n /\ d_uuid d' = d_uuid d /\ d_type d' = d_type d /\ d_tags d' = d_tags d /\ d_tmpl d' = d_tmpl d /\
  d_ddisp d' = d_ddisp d /\ d_power d' = d_power d /\ d_internal d' = d_internal d /\ d_guivm d' = d_guivm d /\
  d_relay d' = d_relay d /\ d_transport d' = d_transport d.

(** an error that qubesd reports: its kind, and three more fields *)
Definition reports_error (answer kind : string) : Prop :=
  exists tb fmt args, answer = "2" +++ str1 NUL +++ kind +++ str1 NUL +++ tb +++ str1 NUL +++ fmt +++ str1 NUL +++ args /\
    SpecExec.lacks NUL kind /\ SpecExec.lacks NUL tb /\ SpecExec.lacks NUL fmt /\
    forall c, has_char c kind = true -> (N_of_ascii c < 128)%N.
