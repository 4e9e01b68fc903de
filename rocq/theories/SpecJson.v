(** What a JSON text says (RFC 8259), for ASCII texts, with the three extra words of Python. *)
From Coq Require Import String Ascii List NArith.
From Verif Require Import Base Json.
Import ListNotations.
Open Scope string_scope.
Open Scope list_scope.

(** white space *)
Inductive white : string -> Prop :=
| white_nil : white ""
| white_cons : forall c w, c = " "%char \/ c = "009"%char \/ c = "010"%char \/ c = "013"%char ->
    white w -> white (String c w).

(** the value of a hexadecimal digit *)
Inductive digit16 : ascii -> N -> Prop :=
| d16_num : forall n, (n < 10)%N -> digit16 (ascii_of_N (48 + n)) n
| d16_lower : forall n, (10 <= n < 16)%N -> digit16 (ascii_of_N (87 + n)) n
| d16_upper : forall n, (10 <= n < 16)%N -> digit16 (ascii_of_N (55 + n)) n.
(** one piece of the inside of a string, and the 16-bit unit that it stands for *)
Inductive unit_text : string -> N -> Prop :=
| u_plain : forall n, (32 <= n < 256)%N -> n <> 34%N -> n <> 92%N -> unit_text (str1 (ascii_of_N n)) n
| u_short : forall e n,
    In (e, n) [(""""%char, 34); ("\"%char, 92); ("/"%char, 47); ("b"%char, 8); ("f"%char, 12);
               ("n"%char, 10); ("r"%char, 13); ("t"%char, 9)]%N ->
    unit_text ("\" +++ str1 e) n
| u_hex : forall a b c d x y z w, digit16 a x -> digit16 b y -> digit16 c z -> digit16 d w ->
    unit_text ("\u" +++ String a (String b (String c (str1 d)))) (x * 4096 + y * 256 + z * 16 + w)%N.
Inductive units_text : string -> list N -> Prop :=
| us_nil : units_text "" []
| us_cons : forall t n s l, unit_text t n -> units_text s l -> units_text (t +++ s) (n :: l).
(** UTF-16: a high surrogate and a low one that follows it are one character *)
Fixpoint utf16 (l : list N) : ustr :=
  match l with
  | [] => []
  | h :: l1 =>
      match l1 with
      | w :: l2 => if ((55296 <=? h) && (h <? 56320) && (56320 <=? w) && (w <? 57344))%N%bool
                   then (65536 + (h - 55296) * 1024 + (w - 56320))%N :: utf16 l2
                   else h :: utf16 l1
      | [] => [h]
      end
  end.
Definition quoted (t : string) (u : ustr) : Prop :=
  exists b l, t = """" +++ b +++ """" /\ units_text b l /\ u = utf16 l.

(** numbers *)
Definition digits (t : string) : Prop :=
  t <> "" /\ forall c, has_char c t = true -> exists n, (n < 10)%N /\ c = ascii_of_N (48 + n).
Definition int_text (t : string) : Prop :=
  t = "0" \/ (digits t /\ starts "0" t = false).
Definition frac_text (t : string) : Prop := t = "" \/ exists d, digits d /\ t = "." +++ d.
Definition exp_text (t : string) : Prop :=
  t = "" \/ exists e g d, (e = "e" \/ e = "E") /\ (g = "" \/ g = "+" \/ g = "-") /\ digits d /\ t = e +++ g +++ d.
Definition number_text (t : string) : Prop :=
  exists m i f e, (m = "" \/ m = "-") /\ int_text i /\ frac_text f /\ exp_text e /\ t = m +++ i +++ f +++ e.

(** values *)
Inductive denotes : string -> json -> Prop :=
| den_null : denotes "null" JNull
| den_true : denotes "true" JTrue
| den_false : denotes "false" JFalse
| den_number : forall t, number_text t -> denotes t (JNum t)
| den_word : forall t, In t ["NaN"; "Infinity"; "-Infinity"] -> denotes t (JNum t)
| den_string : forall t u, quoted t u -> denotes t (JStr u)
| den_list_nil : forall w, white w -> denotes ("[" +++ w +++ "]") (JList [])
| den_list : forall t l, items t l -> denotes ("[" +++ t +++ "]") (JList l)
| den_dict_nil : forall w, white w -> denotes ("{" +++ w +++ "}") (JDict [])
| den_dict : forall t l, members t l -> denotes ("{" +++ t +++ "}") (JDict l)
with items : string -> list json -> Prop :=
| it_one : forall w1 t w2 v, white w1 -> denotes t v -> white w2 -> items (w1 +++ t +++ w2) [v]
| it_more : forall w1 t w2 v s l, white w1 -> denotes t v -> white w2 -> items s l ->
    items (w1 +++ t +++ w2 +++ "," +++ s) (v :: l)
with members : string -> list (ustr * json) -> Prop :=
| me_one : forall w1 q w2 w3 t w4 k v, white w1 -> quoted q k -> white w2 -> white w3 -> denotes t v -> white w4 ->
    members (w1 +++ q +++ w2 +++ ":" +++ w3 +++ t +++ w4) [(k, v)]
| me_more : forall w1 q w2 w3 t w4 k v s l, white w1 -> quoted q k -> white w2 -> white w3 -> denotes t v -> white w4 ->
    members s l ->
    members (w1 +++ q +++ w2 +++ ":" +++ w3 +++ t +++ w4 +++ "," +++ s) ((k, v) :: l).
(** a whole text *)
Definition json_text (t : string) (v : json) : Prop :=
  exists w1 s w2, t = w1 +++ s +++ w2 /\ white w1 /\ white w2 /\ denotes s v.

(** values that are sent: their strings are of Unicode characters, which are not surrogates *)
Definition character (n : N) : Prop := (n < 55296 \/ 57344 <= n < 1114112)%N.
Inductive proper : json -> Prop :=
| pr_null : proper JNull
| pr_true : proper JTrue
| pr_false : proper JFalse
| pr_num : forall t, number_text t -> proper (JNum t)
| pr_str : forall u, Forall character u -> proper (JStr u)
| pr_list : forall l, Forall proper l -> proper (JList l)
| pr_dict : forall l, Forall (fun e => Forall character (fst e) /\ proper (snd e)) l -> proper (JDict l).
