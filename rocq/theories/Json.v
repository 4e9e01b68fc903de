(** The json module of Python, as far as qrexec/server.py 66-69, 111 and 118 use it: dumps with
    its default settings and loads of an ASCII text. A Python string is the list of its code
    points. Not modelled: the limits on the depth of nesting (RecursionError) and on the number
    of digits of an integer; a number is kept as the text it was written with. *)
From Coq Require Import String Ascii List Bool Arith NArith.
From Verif Require Import Base.
Import ListNotations.
Open Scope string_scope.
Open Scope list_scope.

Definition ustr := list N.

Inductive json :=
| JNull | JTrue | JFalse
| JNum (text : string)
| JStr (u : ustr)
| JList (l : list json)
| JDict (l : list (ustr * json)).      (* the pairs, in the order in which they are written *)

(** ** json.dumps: json/encoder.py, py_encode_basestring_ascii *)
Definition hexd (n : N) : ascii := ascii_of_N (if (n <? 10)%N then 48 + n else 87 + n).
Definition hex4 (n : N) : string :=
  String (hexd (n / 4096)) (String (hexd (n / 256 mod 16)) (String (hexd (n / 16 mod 16)) (str1 (hexd (n mod 16))))).
Definition escape (c : N) : string :=
  (if c =? 34 then "\""" else if c =? 92 then "\\"
   else if c =? 8 then "\b" else if c =? 9 then "\t" else if c =? 10 then "\n"
   else if c =? 12 then "\f" else if c =? 13 then "\r"
   else if (32 <=? c) && (c <=? 126) then str1 (ascii_of_N c)
   else if c <? 65536 then "\u" +++ hex4 c
   else "\u" +++ hex4 (55296 + (c - 65536) / 1024) +++ "\u" +++ hex4 (56320 + (c - 65536) mod 1024))%N.
Fixpoint escapes (u : ustr) : string :=
  match u with [] => "" | c :: u' => escape c +++ escapes u' end.
Definition dump_str (u : ustr) : string := """" +++ escapes u +++ """".
(** _iterencode_list and _iterencode_dict; the separators are ", " and ": " *)
Fixpoint dumps (v : json) : string :=
  match v with
  | JNull => "null" | JTrue => "true" | JFalse => "false"
  | JNum t => t
  | JStr u => dump_str u
  | JList l => "[" +++ (fix go l := match l with
                                    | [] => ""
                                    | [v] => dumps v
                                    | v :: l' => dumps v +++ ", " +++ go l'
                                    end) l +++ "]"
  | JDict l => "{" +++ (fix go l := match l with
                                    | [] => ""
                                    | [(k, v)] => dump_str k +++ ": " +++ dumps v
                                    | (k, v) :: l' => dump_str k +++ ": " +++ dumps v +++ ", " +++ go l'
                                    end) l +++ "}"
  end.

(** ** json.loads: Modules/_json.c, json/scanner.py, json/decoder.py *)
Definition hexval (c : ascii) : option N :=
  let n := N_of_ascii c in
  (if (48 <=? n) && (n <=? 57) then Some (n - 48)
   else if (97 <=? n) && (n <=? 102) then Some (n - 87)
   else if (65 <=? n) && (n <=? 70) then Some (n - 55)
   else None)%N.
Definition hexval4 (a b c d : ascii) : option N :=
  match hexval a, hexval b, hexval c, hexval d with
  | Some a, Some b, Some c, Some d => Some (((a * 16 + b) * 16 + c) * 16 + d)%N
  | _, _, _, _ => None
  end.
Definition high (n : N) : bool := ((55296 <=? n) && (n <? 56320))%N.
Definition low (n : N) : bool := ((56320 <=? n) && (n <? 57344))%N.
Definition joined (h l : N) : N := (65536 + (h - 55296) * 1024 + (l - 56320))%N.
(** the letter after a backslash, but u *)
Definition short_escape (e : ascii) : option N :=
  match e with
  | """"%char => Some 34 | "\"%char => Some 92 | "/"%char => Some 47
  | "b"%char => Some 8 | "f"%char => Some 12 | "n"%char => Some 10
  | "r"%char => Some 13 | "t"%char => Some 9
  | _ => None
  end%N.
Definition cons_fst {A B} (x : A) (o : option (list A * B)) : option (list A * B) :=
  match o with Some (l, r) => Some (x :: l, r) | None => None end.
(** scanstring: after the opening quote; what is left after the closing one *)
Fixpoint scanstring (s : string) : option (ustr * string) :=
  match s with
  | EmptyString => None
  | String c s1 =>
      if Ascii.eqb c """" then Some ([], s1)
      else if Ascii.eqb c "\" then
        match s1 with
        | EmptyString => None
        | String e s2 =>
            if Ascii.eqb e "u" then
              match s2 with
              | String a (String b (String c (String d s3))) =>
                  match hexval4 a b c d with
                  | None => None
                  | Some n =>
                      if high n then
                        match s3 with
                        | String b1 (String u1 (String a' (String b' (String c' (String d' s4))))) =>
                            if Ascii.eqb b1 "\" && Ascii.eqb u1 "u" then
                              match hexval4 a' b' c' d' with
                              | None => None
                              | Some m => if low m then cons_fst (joined n m) (scanstring s4)
                                          else cons_fst n (scanstring s3)
                              end
                            else cons_fst n (scanstring s3)
                        | _ => cons_fst n (scanstring s3)
                        end
                      else cons_fst n (scanstring s3)
                  end
              | _ => None
              end
            else match short_escape e with
                 | Some n => cons_fst n (scanstring s2)
                 | None => None
                 end
        end
      else if (N_of_ascii c <? 32)%N then None                 (* strict *)
      else cons_fst (N_of_ascii c) (scanstring s1)
  end.

Definition is_ws (c : ascii) : bool :=
  Ascii.eqb c " " || Ascii.eqb c "009" || Ascii.eqb c "010" || Ascii.eqb c "013".
Fixpoint skip_ws (s : string) : string :=
  match s with String c s' => if is_ws c then skip_ws s' else s | EmptyString => s end.

(** NUMBER_RE: an optional minus, 0 or digits, an optional fraction and exponent; and what is left *)
Definition is_digit (c : ascii) : bool := ((48 <=? N_of_ascii c) && (N_of_ascii c <=? 57))%N.
Fixpoint span_digits (s : string) : string * string :=
  match s with
  | String c s' => if is_digit c then let '(d, r) := span_digits s' in (String c d, r) else ("", s)
  | EmptyString => ("", "")
  end.
Definition scan_int (s : string) : option (string * string) :=
  match s with
  | String c s' => if Ascii.eqb c "0" then Some ("0", s')
                   else if is_digit c then Some (span_digits s) else None
  | EmptyString => None
  end.
Definition scan_frac (s : string) : string * string :=
  match s with
  | String c s' => if Ascii.eqb c "." then
                     match span_digits s' with
                     | (EmptyString, _) => ("", s)
                     | (d, r) => (String c d, r)
                     end
                   else ("", s)
  | EmptyString => ("", s)
  end.
Definition scan_exp (s : string) : string * string :=
  match s with
  | String c s' =>
      if Ascii.eqb c "e" || Ascii.eqb c "E" then
        let '(sign, s2) := match s' with
                           | String g s2 => if Ascii.eqb g "+" || Ascii.eqb g "-" then (str1 g, s2) else ("", s')
                           | EmptyString => ("", s')
                           end in
        match span_digits s2 with
        | (EmptyString, _) => ("", s)
        | (d, r) => (String c (sign +++ d), r)
        end
      else ("", s)
  | EmptyString => ("", s)
  end.
Definition scan_number (s : string) : option (string * string) :=
  let '(sign, s1) := match s with
                     | String c s' => if Ascii.eqb c "-" then ("-", s') else ("", s)
                     | EmptyString => ("", s)
                     end in
  match scan_int s1 with
  | None => None
  | Some (i, s2) =>
      let '(f, s3) := scan_frac s2 in
      let '(e, s4) := scan_exp s3 in
      Some (sign +++ i +++ f +++ e, s4)
  end.
(** null, true, false, NaN, Infinity and -Infinity, otherwise a number *)
Definition scan_word (s : string) : option (json * string) :=
  if starts "null" s then Some (JNull, sdrop 4 s)
  else if starts "true" s then Some (JTrue, sdrop 4 s)
  else if starts "false" s then Some (JFalse, sdrop 5 s)
  else match scan_number s with
       | Some (t, r) => Some (JNum t, r)
       | None =>
           if starts "NaN" s then Some (JNum "NaN", sdrop 3 s)
           else if starts "Infinity" s then Some (JNum "Infinity", sdrop 8 s)
           else if starts "-Infinity" s then Some (JNum "-Infinity", sdrop 9 s)
           else None
       end.

(** scan_once, _parse_array (from the first item) and _parse_object (from the first key) *)
Fixpoint scan_once (fuel : nat) (s : string) : option (json * string) :=
  match fuel with
  | O => None
  | S fuel =>
      match s with
      | EmptyString => None
      | String c s1 =>
          if Ascii.eqb c """" then
            match scanstring s1 with Some (u, r) => Some (JStr u, r) | None => None end
          else if Ascii.eqb c "{" then
            match skip_ws s1 with
            | String d s2 =>
                if Ascii.eqb d "}" then Some (JDict [], s2)
                else match parse_members fuel (String d s2) with
                     | Some (l, r) => Some (JDict l, r)
                     | None => None
                     end
            | EmptyString => None
            end
          else if Ascii.eqb c "[" then
            match skip_ws s1 with
            | String d s2 =>
                if Ascii.eqb d "]" then Some (JList [], s2)
                else match parse_items fuel (String d s2) with
                     | Some (l, r) => Some (JList l, r)
                     | None => None
                     end
            | EmptyString => None
            end
          else scan_word s
      end
  end
with parse_items (fuel : nat) (s : string) : option (list json * string) :=
  match fuel with
  | O => None
  | S fuel =>
      match scan_once fuel s with
      | None => None
      | Some (v, s1) =>
          match skip_ws s1 with
          | String c s2 =>
              if Ascii.eqb c "]" then Some ([v], s2)
              else if Ascii.eqb c "," then cons_fst v (parse_items fuel (skip_ws s2))
              else None
          | EmptyString => None
          end
      end
  end
with parse_members (fuel : nat) (s : string) : option (list (ustr * json) * string) :=
  match fuel with
  | O => None
  | S fuel =>
      match s with
      | EmptyString => None
      | String q s0 =>
          if negb (Ascii.eqb q """") then None
          else match scanstring s0 with
               | None => None
               | Some (k, s1) =>
                   match skip_ws s1 with
                   | EmptyString => None
                   | String c s2 =>
                       if negb (Ascii.eqb c ":") then None
                       else match scan_once fuel (skip_ws s2) with
                            | None => None
                            | Some (v, s3) =>
                                match skip_ws s3 with
                                | String c s4 =>
                                    if Ascii.eqb c "}" then Some ([(k, v)], s4)
                                    else if Ascii.eqb c "," then cons_fst (k, v) (parse_members fuel (skip_ws s4))
                                    else None
                                | EmptyString => None
                                end
                            end
                   end
               end
      end
  end.
(** JSONDecoder.decode *)
Definition loads (s : string) : option json :=
  match scan_once (S (String.length s)) (skip_ws s) with
  | Some (v, r) => if String.eqb (skip_ws r) "" then Some v else None
  | None => None
  end.
