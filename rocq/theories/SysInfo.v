(** System description: qrexec/utils.py 121-187 *)
From Coq Require Import String Ascii List Bool.
From Verif Require Import Base.
Import ListNotations.
Open Scope string_scope.
Open Scope list_scope.

(** SystemInfoEntry, utils.py 121-131, plus the keys read with .get() by
    parser.py (internal, relayvm, transport_rpc). A missing key or JSON null is
    [None]; icon and label are omitted (they only decorate the dialog). *)
Record dom := mkDom {
  d_uuid : option string;
  d_type : string;
  d_tags : list string;
  d_tmpl : bool;                 (* template_for_dispvms *)
  d_ddisp : option string;       (* default_dispvm *)
  d_power : string;              (* power_state *)
  d_internal : bool;
  d_guivm : option string;
  d_relay : option string;       (* relayvm *)
  d_transport : option string;   (* transport_rpc *)
  d_name : string
}.

(** system_info["domains"]: keyed by name and by "uuid:..." *)
Definition info := list (string * dom).

(** j["name"] = i *)
Definition set_name (n : string) (d : dom) : dom :=
  mkDom (d_uuid d) (d_type d) (d_tags d) (d_tmpl d) (d_ddisp d) (d_power d)
        (d_internal d) (d_guivm d) (d_relay d) (d_transport d) n.

(** get_system_info, utils.py 149-179: the loop that adds "name" and the uuid
    keys to the decoded JSON [raw]. The socket call and JSON decoding are in
    Qubesd.v. *)
Fixpoint add_uuid_keys (acc : info) (todo : info) : info :=
  match todo with
  | [] => acc
  | (i, j) :: todo' =>
      let j' := set_name i j in
      let acc1 := dset acc i j' in
      let acc2 := match d_uuid j with
                  | Some u => dset acc1 ("uuid:" +++ u) j'
                  | None => acc1
                  end in
      add_uuid_keys acc2 todo'
  end.
Definition get_system_info (raw : info) : info := add_uuid_keys raw raw.

(** uuid_to_name, utils.py 141-146 *)
Definition uuid_to_name (i : info) (x : string) : res string :=
  if starts "uuid:" x then rmap d_name (dgetE i x)
  else if starts "@dispvm:uuid:" x then
    rmap (fun d => "@dispvm:" +++ d_name d) (dgetE i (sdrop 8 x))
  else Ok x.

(** A well-formed system description, as [get_system_info] produces it from a
    well-formed answer of qubesd (see SysInfoProofs.v):
    every uuid key denotes the same entry as the name stored in it, names are
    plain (non-empty, no keyword, not of the form uuid:...) *)
Definition plain_name (s : string) : bool :=
  negb (String.eqb s "") && negb (starts "@" s) && negb (String.eqb s "*")
  && negb (starts "uuid:" s).

Record wf_info (i : info) : Prop := {
  wf_nodup : NoDup (map fst i);
  wf_keys : forall k d, dget i k = Some d ->
      plain_name (d_name d) = true /\ dget i (d_name d) = Some d /\
      (k = d_name d \/ exists u, d_uuid d = Some u /\ k = "uuid:" +++ u);
  wf_uuid : forall k d u, dget i k = Some d -> d_uuid d = Some u ->
      dget i ("uuid:" +++ u) = Some d
}.
