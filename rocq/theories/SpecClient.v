(** Specification vocabulary: the programs that make calls. How command lines are read, what the
    options of qrexec-client-vm and qrexec-client are, numbers, and the -c parameter. *)
From Coq Require Import String Ascii List Bool Arith ZArith.
From Verif Require Import Base.
Import ListNotations.
Open Scope string_scope.
Open Scope list_scope.
Open Scope Z_scope.

(** ** Command lines *)
(** [line plus spelled argv os ps]: [argv] has the options [os] and the other words [ps]. An
    option is one word or two. If [plus], the first other word ends the options; -- always
    does. *)
Definition free_word (w : string) : Prop := w = "-" \/ forall r, w <> "-" +++ r.
Inductive line {O} (plus : bool) (spelled : O -> list string -> Prop) : list string -> list O -> list string -> Prop :=
| ln_end : line plus spelled [] [] []
| ln_dashes ps : line plus spelled ("--" :: ps) [] ps
| ln_option o ws argv os ps : spelled o ws -> line plus spelled argv os ps -> line plus spelled (ws ++ argv) (o :: os) ps
| ln_stop w ps : plus = true -> free_word w -> line plus spelled (w :: ps) [] (w :: ps)
| ln_free w argv os ps : plus = false -> free_word w -> line plus spelled argv os ps -> line plus spelled (w :: argv) os (w :: ps).

Inductive flag_words (short long : option string) : list string -> Prop :=
| fw_short s : short = Some s -> flag_words short long ["-" +++ s]
| fw_long l : long = Some l -> flag_words short long ["--" +++ l].
Inductive value_words (short long : option string) (x : string) : list string -> Prop :=
| vw_short s : short = Some s -> value_words short long x ["-" +++ s; x]
| vw_joined s : short = Some s -> x <> "" -> value_words short long x ["-" +++ s +++ x]
| vw_long l : long = Some l -> value_words short long x ["--" +++ l; x]
| vw_equals l : long = Some l -> value_words short long x ["--" +++ l +++ "=" +++ x].

(** the last value given, and how often something was given *)
Fixpoint last_of {O A} (f : O -> option A) (os : list O) : option A :=
  match os with
  | [] => None
  | o :: os' => match last_of f os' with Some x => Some x | None => f o end
  end.
Definition or_else {A} (o : option A) (d : A) : A := match o with Some x => x | None => d end.
Definition times {O A} (f : O -> option A) (os : list O) : nat :=
  List.length (filter (fun o => match f o with Some _ => true | None => false end) os).
Definition given {O A} (f : O -> option A) (os : list O) : Prop := exists o x, In o os /\ f o = Some x.

(** ** Numbers as in C: decimal, octal after 0, hexadecimal after 0x; at most 2147483647 *)
Inductive digit_in (base : Z) : ascii -> Z -> Prop :=
| di_09 c : 48 <= Z.of_nat (nat_of_ascii c) <= 57 -> Z.of_nat (nat_of_ascii c) - 48 < base ->
    digit_in base c (Z.of_nat (nat_of_ascii c) - 48)
| di_af c : 97 <= Z.of_nat (nat_of_ascii c) <= 102 -> Z.of_nat (nat_of_ascii c) - 87 < base ->
    digit_in base c (Z.of_nat (nat_of_ascii c) - 87)
| di_AF c : 65 <= Z.of_nat (nat_of_ascii c) <= 70 -> Z.of_nat (nat_of_ascii c) - 55 < base ->
    digit_in base c (Z.of_nat (nat_of_ascii c) - 55).
(** [numeral base s n]: a possibly empty sequence of digits *)
Inductive numeral (base : Z) : string -> Z -> Prop :=
| nu_nil : numeral base "" 0
| nu_digit s n c d : numeral base s n -> digit_in base c d -> numeral base (s +++ str1 c) (base * n + d).
Inductive c_number : string -> Z -> Prop :=
| cn_dec c s n : c <> "0"%char -> numeral 10 (String c s) n -> n <= 2147483647 -> c_number (String c s) n
| cn_oct s n : numeral 8 s n -> n <= 2147483647 -> c_number ("0" +++ s) n
| cn_hex x s n : x = "0x" \/ x = "0X" -> s <> "" -> numeral 16 s n -> n <= 2147483647 -> c_number (x +++ s) n.

(** ** qrexec-client-vm *)
Inductive vm_opt :=
| OFilterOut (on : bool) | OFilterErr (on : bool) | OAgent (path : string) | OPrefix (data : string)
| OSource (qube : string) | OBuffer (text : string) | OOneSocket | OHelp.
Definition vm_spelled (o : vm_opt) (ws : list string) : Prop :=
  match o with
  | OFilterOut true => flag_words (Some "t") (Some "filter-escape-chars-stdout") ws
  | OFilterOut false => flag_words None (Some "no-filter-escape-chars-stdout") ws
  | OFilterErr true => flag_words (Some "T") (Some "filter-escape-chars-stderr") ws
  | OFilterErr false => flag_words None (Some "no-filter-escape-chars-stderr") ws
  | OAgent p => value_words (Some "a") (Some "agent-socket") p ws
  | OPrefix p => value_words (Some "p") (Some "prefix-data") p ws
  | OSource s => value_words (Some "s") (Some "source-qube") s ws
  | OBuffer t => value_words None (Some "buffer-size") t ws
  | OOneSocket => flag_words None (Some "use-stdin-socket") ws
  | OHelp => flag_words (Some "h") (Some "help") ws
  end.
Definition o_out (o : vm_opt) : option bool := match o with OFilterOut b => Some b | _ => None end.
Definition o_err (o : vm_opt) : option bool := match o with OFilterErr b => Some b | _ => None end.
Definition o_agent (o : vm_opt) : option string := match o with OAgent p => Some p | _ => None end.
Definition o_prefix (o : vm_opt) : option string := match o with OPrefix p => Some p | _ => None end.
Definition o_source (o : vm_opt) : option string := match o with OSource s => Some s | _ => None end.
Definition o_buffer (o : vm_opt) : option string := match o with OBuffer t => Some t | _ => None end.
Definition o_socket (o : vm_opt) : option unit := match o with OOneSocket => Some tt | _ => None end.
Definition o_help (o : vm_opt) : option unit := match o with OHelp => Some tt | _ => None end.
(** options the program accepts *)
Record vm_fine (stream : bool) (os : list vm_opt) : Prop := {
  vf_prefix : (times o_prefix os <= 1)%nat;
  vf_source : (times o_source os <= 1)%nat;
  vf_socket : (times o_socket os <= if stream then 1 else 0)%nat;
  vf_buffer : forall t, In (OBuffer t) os -> exists n, c_number t n;
  vf_help : times o_help os = 0%nat }.

(** the old spelling of keywords *)
Inductive at_signs : string -> string -> Prop :=
| as_nil : at_signs "" ""
| as_dollar s t : at_signs s t -> at_signs ("$" +++ s) ("@" +++ t)
| as_other c s t : c <> "$"%char -> at_signs s t -> at_signs (String c s) (String c t).
(** the text that fits into a field of [n] bytes with a final NUL *)
Definition fits (n : nat) (s t : string) : Prop :=
  (String.length s < n)%nat /\ t = s \/ (n <= String.length s)%nat /\ String.length t = (n - 1)%nat /\ exists r, s = t +++ r.

(** ** qrexec-client *)
Inductive cl_opt :=
| CDomain (d : string) | CLocal (l : string) | CExec | CNoCode | CConnect (t : string) | CPrefix (p : string)
| CFilterOut | CFilterErr | CTimeout (t : string) | CWait | CDir (p : string) | COneSocket | CKill | CHelp.
Definition cl_spelled (o : cl_opt) (ws : list string) : Prop :=
  match o with
  | CDomain d => value_words (Some "d") None d ws
  | CLocal l => value_words (Some "l") None l ws
  | CExec => flag_words (Some "e") None ws
  | CNoCode => flag_words (Some "E") (Some "no-exit-code") ws
  | CConnect t => value_words (Some "c") None t ws
  | CPrefix p => value_words (Some "p") (Some "prefix-data") p ws
  | CFilterOut => flag_words (Some "t") None ws
  | CFilterErr => flag_words (Some "T") None ws
  | CTimeout t => value_words (Some "w") None t ws
  | CWait => flag_words (Some "W") None ws
  | CDir p => value_words None (Some "socket-dir") p ws
  | COneSocket => flag_words None (Some "use-stdin-socket") ws
  | CKill => flag_words (Some "k") None ws
  | CHelp => flag_words (Some "h") (Some "help") ws
  end.
Definition p_domain (o : cl_opt) : option string := match o with CDomain d => Some d | _ => None end.
Definition p_local (o : cl_opt) : option string := match o with CLocal d => Some d | _ => None end.
Definition p_exec (o : cl_opt) : option unit := match o with CExec => Some tt | _ => None end.
Definition p_nocode (o : cl_opt) : option unit := match o with CNoCode => Some tt | _ => None end.
Definition p_connect (o : cl_opt) : option string := match o with CConnect d => Some d | _ => None end.
Definition p_prefix (o : cl_opt) : option string := match o with CPrefix d => Some d | _ => None end.
Definition p_out (o : cl_opt) : option unit := match o with CFilterOut => Some tt | _ => None end.
Definition p_err (o : cl_opt) : option unit := match o with CFilterErr => Some tt | _ => None end.
Definition p_timeout (o : cl_opt) : option string := match o with CTimeout d => Some d | _ => None end.
Definition p_wait (o : cl_opt) : option unit := match o with CWait => Some tt | _ => None end.
Definition p_socket (o : cl_opt) : option unit := match o with COneSocket => Some tt | _ => None end.
Definition p_kill (o : cl_opt) : option unit := match o with CKill => Some tt | _ => None end.
Definition p_help (o : cl_opt) : option unit := match o with CHelp => Some tt | _ => None end.
Definition is_dom0 (s : string) : Prop :=
  s = "dom0" \/ s = "@adminvm" \/ s = "uuid:00000000-0000-0000-0000-000000000000".
(** id,name,number: a connection asked for by the qube [name] *)
Inductive connect_text : string -> string -> string -> Z -> Prop :=
| cx id name num n : has_char "," id = false -> has_char "," name = false -> (String.length id <= 31)%nat -> c_number num n ->
    connect_text (id +++ "," +++ name +++ "," +++ num) id name n.
Record cl_fine (stream : bool) (os : list cl_opt) : Prop := {
  cf_connect : (times p_connect os <= 1)%nat;
  cf_texts : forall t, In (CConnect t) os -> exists id name n, connect_text t id name n /\ ~ is_dom0 name /\ n <> 0;
  cf_prefix : (times p_prefix os <= 1)%nat;
  cf_timeout : forall t, In (CTimeout t) os -> exists n, c_number t n;
  cf_socket : (times p_socket os <= if stream then 1 else 0)%nat;
  cf_help : times p_help os = 0%nat }.
(** at most one of -e, -l and -c, and not -l with one socket *)
Definition compatible (os : list cl_opt) : Prop :=
  (given p_exec os -> ~ given p_local os) /\ (given p_exec os -> ~ given p_connect os) /\
  (given p_local os -> ~ given p_connect os) /\ (given p_local os -> ~ given p_socket os).

(** ** The request sent to the agent *)
Fixpoint zeros (n : nat) : string := match n with O => "" | S n => String NUL (zeros n) end.
(** [padded n s f]: the field [f] of [n] bytes holds [s] and zeros *)
Definition padded (n : nat) (s f : string) : Prop := (String.length s < n)%nat /\ f = s +++ zeros (n - String.length s).
(** [sent source target service hdr body]: header and body ask for [service] of [target], on
    behalf of [source]. Longer names are cut. *)
Inductive sent (source target service : string) : Z * Z -> string -> Prop :=
| st t t' s' fs ft fi : at_signs target t -> fits 64 t t' -> fits 64 source s' ->
    padded 64 s' fs -> padded 64 t' ft -> padded 32 "SOCKET" fi ->
    sent source target service (531, 161 + Z.of_nat (String.length service)) (fs +++ ft +++ fi +++ service +++ str1 NUL).

(** the name of a service with its argument *)
Definition with_arg (name : string) (arg : option string) : string :=
  match arg with Some a => name +++ "+" +++ a | None => name end.
