(** Specification vocabulary: UTF-8 (RFC 3629, section 3) *)
From Coq Require Import String Ascii List Bool Arith ZArith.
From Verif Require Import Base.
Import ListNotations.
Open Scope string_scope.
Open Scope list_scope.
Open Scope Z_scope.

(** Unicode scalar values: no surrogates *)
Definition scalar (n : Z) : Prop := 0 <= n < 55296 \/ 57344 <= n < 1114112.
Definition byte (n : Z) : ascii := ascii_of_N (Z.to_N n).
(** The bytes of a character *)
Definition encode_char (n : Z) : string :=
  if n <? 128 then str1 (byte n)
  else if n <? 2048 then String (byte (192 + n / 64)) (str1 (byte (128 + n mod 64)))
  else if n <? 65536 then
    String (byte (224 + n / 4096)) (String (byte (128 + n / 64 mod 64)) (str1 (byte (128 + n mod 64))))
  else
    String (byte (240 + n / 262144)) (String (byte (128 + n / 4096 mod 64))
      (String (byte (128 + n / 64 mod 64)) (str1 (byte (128 + n mod 64))))).
Fixpoint encode (l : list Z) : string :=
  match l with [] => "" | n :: l' => encode_char n +++ encode l' end.
Definition utf8_text (s : string) : Prop := exists l, Forall scalar l /\ s = encode l.
