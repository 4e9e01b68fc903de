(** A file system as seen by the policy code.

    Simplifications: no symbolic links, no permissions other than a file being
    readable or not, no size limits; a path is the list of its components from
    the root; the order of the entries is the order in which directories are
    listed (os.scandir order is arbitrary). *)
From Coq Require Import String Ascii List Bool Arith.
From Verif Require Import Base.
Import ListNotations.
Open Scope string_scope.
Open Scope nat_scope.
Open Scope list_scope.

Definition path := list string.

Inductive node :=
| NFile (content : option string)   (* regular file: its bytes, None if it cannot be read *)
| NDir
| NOther.                           (* device, socket, dangling link *)

Definition fs := list (path * node).

Definition path_eqb (p q : path) : bool :=
  if list_eq_dec string_dec p q then true else false.

Fixpoint fget (f : fs) (p : path) : option node :=
  match f with
  | [] => None
  | (q, n) :: f' => if path_eqb p q then Some n else fget f' p
  end.
(** write a file (created if missing) *)
Fixpoint fset (f : fs) (p : path) (n : node) : fs :=
  match f with
  | [] => [(p, n)]
  | (q, m) :: f' => if path_eqb p q then (p, n) :: f' else (q, m) :: fset f' p n
  end.
(** unlink *)
Fixpoint fdel (f : fs) (p : path) : fs :=
  match f with
  | [] => []
  | (q, m) :: f' => if path_eqb p q then fdel f' p else (q, m) :: fdel f' p
  end.

(** Path.is_file(), Path.is_dir() *)
Definition is_file (f : fs) (p : path) : bool :=
  match fget f p with Some (NFile _) => true | _ => false end.
Definition is_dir (f : fs) (p : path) : bool :=
  match fget f p with Some NDir => true | _ => false end.

(** Path.parent and Path.name of a path that is not the root *)
Fixpoint split_last (p : path) : option (path * string) :=
  match p with
  | [] => None
  | [n] => Some ([], n)
  | x :: p' => match split_last p' with
               | Some (d, n) => Some (x :: d, n)
               | None => None
               end
  end.

(** names of the entries of directory d, in listing order *)
Fixpoint listing (f : fs) (d : path) : list string :=
  match f with
  | [] => []
  | (p, _) :: f' =>
      match split_last p with
      | Some (d', n) => if path_eqb d d' then n :: listing f' d else listing f' d
      | None => listing f' d
      end
  end.
(** Path.iterdir(): OSError when d is not a directory *)
Definition iterdir (f : fs) (d : path) : res (list string) :=
  if is_dir f d then Ok (listing f d) else Err EOs.

(** ** UTF-8 (RFC 3629), as checked by Python's strict decoder *)
Fixpoint utf8_valid_aux (need : nat) (lo hi : nat) (s : string) : bool :=
  match s with
  | EmptyString => Nat.eqb need 0
  | String c s' =>
      let n := nat_of_ascii c in
      match need with
      | S k => (lo <=? n) && (n <=? hi) && utf8_valid_aux k 128 191 s'
      | 0 =>
          if n <=? 127 then utf8_valid_aux 0 128 191 s'
          else if (194 <=? n) && (n <=? 223) then utf8_valid_aux 1 128 191 s'
          else if n =? 224 then utf8_valid_aux 2 160 191 s'
          else if n =? 237 then utf8_valid_aux 2 128 159 s'
          else if (225 <=? n) && (n <=? 239) then utf8_valid_aux 2 128 191 s'
          else if n =? 240 then utf8_valid_aux 3 144 191 s'
          else if (241 <=? n) && (n <=? 243) then utf8_valid_aux 3 128 191 s'
          else if n =? 244 then utf8_valid_aux 3 128 143 s'
          else false
      end
  end.
Definition utf8_valid (s : string) : bool := utf8_valid_aux 0 128 191 s.

(** open(path) and read everything in text mode. The decoding error
    (UnicodeDecodeError, a ValueError) is raised when reading starts; text is
    kept as its UTF-8 bytes. *)
Definition read_text (f : fs) (p : path) : res string :=
  match fget f p with
  | Some (NFile (Some c)) => if utf8_valid c then Ok c else Err EValue
  | _ => Err EOs
  end.
(** for line in file, for a file opened in text mode: universal newlines *)
Definition read_lines (f : fs) (p : path) : res (list string) :=
  do t <- read_text f p; Ok (lines_univ t).

(** ** Paths as text *)
(** PurePosixPath(s): is it absolute, and its components ("" and "." dropped;
    the special meaning of exactly two leading slashes is not modelled) *)
Definition path_parts (s : string) : list string :=
  filter (fun c => negb (String.eqb c "" || String.eqb c ".")) (split_all "/" s).
Definition path_abs (s : string) : bool := starts "/" s.

(** Path.resolve() without symbolic links: ".." removes a component *)
Fixpoint normalise (acc : path) (p : path) : path :=
  match p with
  | [] => acc
  | c :: p' => if String.eqb c ".." then normalise (removelast acc) p'
               else normalise (acc ++ [c]) p'
  end.
(** (base / s).resolve() *)
Definition resolve (base : path) (s : string) : path :=
  if path_abs s then normalise [] (path_parts s) else normalise [] (base ++ path_parts s).

(** str(path) *)
Fixpoint path_str (p : path) : string :=
  match p with
  | [] => "/"
  | [c] => "/" +++ c
  | c :: p' => "/" +++ c +++ path_str p'
  end.

(** Path.suffix: from the last dot on, if the dot is neither first nor last *)
Fixpoint last_dot (s : string) : option string :=
  match s with
  | EmptyString => None
  | String c s' =>
      match last_dot s' with
      | Some r => Some r
      | None => if Ascii.eqb c "." then Some (String c s') else None
      end
  end.
Definition suffix (name : string) : string :=
  match last_dot name with
  | Some r => if (String.length r =? String.length name)%nat || String.eqb r "." then "" else r
  | None => ""
  end.
