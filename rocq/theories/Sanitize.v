(** Name sanitisers: qrexec/utils.py and daemon/qrexec-daemon.c *)
From Coq Require Import String Ascii List Bool Arith.
From Verif Require Import Base.
Open Scope string_scope.
Open Scope nat_scope.

Definition between (lo hi c : ascii) : bool :=
  (nat_of_ascii lo <=? nat_of_ascii c) && (nat_of_ascii c <=? nat_of_ascii hi).

(** _sanitize_char, qrexec/utils.py 34-48; the set of extra characters is a string *)
Definition py_sanitize_char (extra : string) (c : ascii) : ascii :=
  if between "a" "z" c || between "A" "Z" c || between "0" "9" c
     || has_char c "@_-." || has_char c extra
  then c else "_"%char.

(** _sanitize_name, qrexec/utils.py 57-71. Characters above 127 are replaced one
    by one; in Python one code point counts as one character, here one byte. *)
Definition py_sanitize_name (s extra : string) (assert_sanitized : bool) : res string :=
  let result := smap (py_sanitize_char extra) s in
  if assert_sanitized && negb (String.eqb s result) then Err EValue else Ok result.

(** sanitize_domain_name, sanitize_service_name, qrexec/utils.py 74-83 *)
Definition sanitize_domain_name (s : string) (strict : bool) : res string :=
  py_sanitize_name s "" strict.
Definition sanitize_service_name (s : string) (strict : bool) : res string :=
  py_sanitize_name s "+" strict.

(** sanitize_name, daemon/qrexec-daemon.c 861-879: the loop stops at the first
    NUL byte of the buffer; [extra] plays the role of the C string
    extra_allowed_chars, an empty one that of a null pointer *)
Fixpoint c_sanitize_name (s extra : string) : string :=
  match s with
  | EmptyString => EmptyString
  | String c s' =>
      if Ascii.eqb c NUL then s
      else String
        (if between "a" "z" c then c
         else if between "A" "Z" c then c
         else if between "0" "9" c then c
         else if Ascii.eqb c "_" || Ascii.eqb c "-" || Ascii.eqb c "." then c
         else if has_char c extra then c
         else "_"%char)
        (c_sanitize_name s' extra)
  end.

(** A C string: the bytes of a buffer before the first NUL *)
Fixpoint cstr (s : string) : string :=
  match s with
  | EmptyString => EmptyString
  | String c s' => if Ascii.eqb c NUL then EmptyString else String c (cstr s')
  end.
