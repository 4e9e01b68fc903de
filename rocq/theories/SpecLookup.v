(** Specification vocabulary: which implementation of a service is used *)
From Coq Require Import String Ascii List Bool Arith ZArith.
From Verif Require Import Base Exec SpecExec.
Import ListNotations.
Open Scope string_scope.
Open Scope list_scope.
Open Scope Z_scope.

Definition points_to_tcp (t : string) : Prop := t = "/dev/tcp" \/ begins "/dev/tcp/" t.

(** what is found at a path: nothing (a dangling link counts as nothing), a socket
    or another file, or a link to a TCP address *)
Inductive thing := Nothing | Is (k : kind) | Tcp (target : string).
Inductive entry (fs : filesystem) (path : string) : thing -> Prop :=
| en_absent : fs path = LAbsent -> entry fs path Nothing
| en_dangling t : fs path = LLink (Some t) StatAbsent -> ~ points_to_tcp t -> entry fs path Nothing
| en_file k : fs path = LFound k -> entry fs path (Is k)
| en_link t k : fs path = LLink (Some t) (StatOk k) -> ~ points_to_tcp t -> entry fs path (Is k)
| en_tcp t s : fs path = LLink (Some t) s -> points_to_tcp t -> entry fs path (Tcp t).

Definition in_dir (dir name : string) : string := dir +++ "/" +++ name.
(** [name] is in none of the directories *)
Definition nowhere (fs : filesystem) (dirs : list string) (name : string) : Prop :=
  size name > 255 \/ forall d, In d dirs -> entry fs (in_dir d name) Nothing.
(** the first directory that has [name] has it as [th] *)
Definition first_in (fs : filesystem) (dirs : list string) (name : string) (path : string) (th : thing) : Prop :=
  size name <= 255 /\ th <> Nothing /\
  exists before d after, dirs = before ++ d :: after /\
    (forall d', In d' before -> entry fs (in_dir d' name) Nothing) /\
    path = in_dir d name /\ entry fs path th.
(** the implementation of a call: the one for this very argument if there is one *)
Inductive implementation (fs : filesystem) (dirs : list string) (c : call) (path : string) (th : thing) : Prop :=
| im_exact : first_in fs dirs (c_full c) path th -> implementation fs dirs c path th
| im_general : nowhere fs dirs (c_full c) -> first_in fs dirs (c_name c) path th ->
    implementation fs dirs c path th.

Definition no_argument (a : option string) : Prop := a = None \/ a = Some "".
Fixpoint plus_to_colon (s : string) : string :=
  match s with
  | EmptyString => EmptyString
  | String c s' => String (if Ascii.eqb c "+" then ":"%char else c) (plus_to_colon s')
  end.
(** the address a TCP service connects to *)
Inductive tcp_to : string -> option string -> string -> string -> Prop :=
| tt_fixed h p a : lacks "/" h -> no_argument a -> tcp_to ("/dev/tcp/" +++ h +++ "/" +++ p) a h p
| tt_host h p : lacks "/" h -> h <> "" -> p <> "" -> tcp_to ("/dev/tcp/" +++ h) (Some p) h p
| tt_any h p : lacks "+" p -> lacks "_" h ->
    tcp_to "/dev/tcp" (Some (h +++ "+" +++ p)) (plus_to_colon h) p.
Definition port_number (p : string) : Prop := exists n, 1 <= n <= 65535 /\ decimal p n.

(** a search path: directory names separated by colons *)
Definition search_path (path : string) (dirs : list string) : Prop :=
  path = join ":" dirs /\ forall d, In d dirs -> d <> "" /\ lacks ":" d.
(** the paths tried, and the link used, fit in the buffer *)
Definition fits (dirs : list string) (name : string) : Prop :=
  forall d, In d dirs -> size (in_dir d name) < 1024.
Definition link_fits (th : thing) : Prop :=
  match th with Tcp t => size t < 1024 /\ t <> "/dev/tcp/" | _ => True end.

(** how the service is reached; [greeting] is the command, with a NUL byte *)
Inductive reached (sockets greet : bool) (command : string) (path : string) : thing -> option string -> service -> Prop :=
| re_socket a : sockets = true ->
    reached sockets greet command path (Is KSocket) a
      (ConnectSocket path (if greet then Some (command +++ str1 NUL) else None))
| re_program a : reached sockets greet command path (Is (KFile true)) a (RunProgram path)
| re_tcp t a h p : sockets = true -> tcp_to t a h p -> port_number p ->
    reached sockets greet command path (Tcp t) a
      (ConnectTcp h p (if greet then Some (command +++ str1 NUL) else None)).
