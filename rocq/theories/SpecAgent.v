(** Specification vocabulary: control messages of an agent *)
From Coq Require Import String Ascii List Bool Arith ZArith.
From Verif Require Import Base SpecDaemon.
Import ListNotations.
Open Scope string_scope.
Open Scope list_scope.

Fixpoint nuls (n : nat) : string :=
  match n with 0 => "" | S n => String NUL (nuls n) end.

(** The message types an agent may send, with the protocol versions that allow
    them and the lengths they may have *)
Inductive header_allowed (version : Z) : Z -> Z -> Prop :=
| ha_trigger2 : (version < 3)%Z -> header_allowed version 528 128
| ha_trigger3 len : (3 <= version)%Z -> (96 < len <= 96 + 65000)%Z -> header_allowed version 530 len
| ha_trigger4 len : (4 <= version)%Z -> (160 < len <= 160 + 65000)%Z -> header_allowed version 531 len
| ha_terminated : header_allowed version 529 8.

(** The version agreed on with an agent that announces [theirs] *)
Definition agreed (theirs agreed : Z) : Prop :=
  (2 <= theirs)%Z /\ agreed = Z.min theirs 4.

(** A request identifier: a text of allowed characters padded with NUL bytes, at
    least one *)
Definition request_ident (raw ident : string) : Prop :=
  spelled " " ident /\ exists k, raw = ident +++ nuls (S k).

(** The text in a fixed-size field: the bytes before the first NUL, or all but
    the last byte *)
Definition text_in (raw text : string) : Prop :=
  exists rest, raw = text +++ rest /\ no_nul text /\
    (starts (str1 NUL) rest = true \/ String.length rest = 1).

(** A service name as sent, and as it is used *)
Definition service_name (sent used : string) : Prop :=
  sent <> "" /\ starts "+" sent = false /\ cleaned "+" sent used.

(** A service call carried by a message: on behalf of which remote qube, the
    target, the service, and the identifier of the request *)
Inductive service_message (version : Z) : Z -> string -> option string -> string -> string -> string -> Prop :=
| sm_2 name tgt raw ident n0 t0 service target : (version < 3)%Z ->
    String.length name = 64 -> String.length tgt = 32 -> String.length raw = 32 ->
    request_ident raw ident -> text_in name n0 -> service_name n0 service ->
    text_in tgt t0 -> cleaned "@:" t0 target ->
    service_message version 528 (name +++ tgt +++ raw) None target service ident
| sm_3 tgt raw ident name t0 service target : (3 <= version)%Z ->
    String.length tgt = 64 -> String.length raw = 32 -> (Z.of_nat (String.length name) < 65000)%Z ->
    request_ident raw ident -> no_nul name -> service_name name service ->
    text_in tgt t0 -> cleaned "@:" t0 target ->
    service_message version 530 (tgt +++ raw +++ name +++ str1 NUL) None target service ident
| sm_4 src tgt raw ident name s0 t0 service source target : (4 <= version)%Z ->
    String.length src = 64 -> String.length tgt = 64 -> String.length raw = 32 ->
    (Z.of_nat (String.length name) < 65000)%Z ->
    request_ident raw ident -> no_nul name -> service_name name service ->
    text_in src s0 -> cleaned "@:" s0 source -> text_in tgt t0 -> cleaned "@:" t0 target ->
    service_message version 531 (src +++ tgt +++ raw +++ name +++ str1 NUL) (Some source) target service ident.
