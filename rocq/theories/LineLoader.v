(** Loading with line numbers: the functions of Loader.v once more, each rule together with
    its attribute lineno (parser.py 1624, 1708: lines are counted from 1; parser_compat.py 155,
    167: None for the rules that the compatibility parser adds). [lines_erase]: without the
    numbers, the result is that of Loader.v.

    [compat]: what handle_compat40 does (Compat40Loader, or nothing in NoCompatPolicy,
    qrexec_legacy_convert.py 71-77). *)
From Coq Require Import String Ascii List Bool Arith.
From Verif Require Import Base SysInfo Token Rule FileSys Loader LoaderProofs.
Import ListNotations.
Open Scope string_scope.
Open Scope list_scope.

Definition nrule : Type := rule * option nat.
Fixpoint nconcat {A} (g : A -> res (list nrule)) (l : list A) : res (list nrule) :=
  match l with
  | [] => Ok []
  | x :: l' => do a <- g x; do b <- nconcat g l'; Ok (a ++ b)
  end.
(** enumerate(file, start=1) *)
Fixpoint enumerate (n : nat) (l : list string) : list (nat * string) :=
  match l with [] => [] | x :: l' => (n, x) :: enumerate (S n) l' end.

(** load_policy_file_service 1704-1756, handle_include_service 1976-1994 *)
Definition nservice_line (openf : string -> res (string * list string))
  (rec : option string -> option string -> string -> list string -> res (list nrule))
  (sv ar : option string) (file : string) (nraw : nat * string) : res (list nrule) :=
  let line := strip (snd nraw) in
  if skip_line line then Ok []
  else
    let line := compat_subst line in
    if starts "!" line then
      match split_ws line with
      | directive :: params =>
          if String.eqb directive "!include" then
            match params with
            | [p] =>
                do sa <- validate_service_and_argument sv ar;
                do fl <- openf p;
                rec (fst sa) (snd sa) (fst fl) (snd fl)
            | _ => Err ESyntax
            end
          else Err ESyntax
      | [] => Err ESyntax
      end
    else do r <- from_line_service sv ar line file; Ok [(r, Some (fst nraw))].
Fixpoint nload_service (fuel : nat) (openf : string -> res (string * list string))
  (sv ar : option string) (file : string) (lines : list string) : res (list nrule) :=
  match fuel with
  | 0 => Err EFuel
  | S fuel' => nconcat (nservice_line openf (nload_service fuel' openf) sv ar file) (enumerate 1 lines)
  end.

(** load_policy_file 1620-1702 *)
Definition nfile_line (L : loader) (compat : nat -> res (list nrule)) (rec : string -> list string -> res (list nrule)) (fuel : nat)
  (file : string) (nraw : nat * string) : res (list nrule) :=
  let line := strip (snd nraw) in
  if skip_line line then Ok []
  else if starts "!" line then
    match split_ws line with
    | directive :: params =>
        if String.eqb directive "!include" then
          match params with
          | [p] => do fl <- ld_open L p; rec (fst fl) (snd fl)
          | _ => Err ESyntax
          end
        else if String.eqb directive "!include-dir" then
          match params with
          | [p] =>
              do files <- ld_dir L p;
              nconcat (fun fl : string * res (list string) =>
                do ls <- snd fl; rec (fst fl) ls) files
          | _ => Err ESyntax
          end
        else if String.eqb directive "!include-service" then
          match params with
          | [service; argument; p] =>
              do sa <- validate_service_and_argument (Some service) (Some argument);
              do fl <- ld_open L p;
              nload_service fuel (ld_open L) (fst sa) (snd sa) (fst fl) (snd fl)
          | _ => Err ESyntax
          end
        else if String.eqb directive "!compat-4.0" then
          match params with
          | [] => compat fuel
          | _ => Err ESyntax
          end
        else Err ESyntax
    | [] => Err ESyntax
    end
  else do r <- from_line line file; Ok [(r, Some (fst nraw))].
Fixpoint nload_file (fuel : nat) (L : loader) (compat : nat -> res (list nrule)) (file : string) (lines : list string)
  : res (list nrule) :=
  match fuel with
  | 0 => Err EFuel
  | S fuel' => nconcat (nfile_line L compat (nload_file fuel' L compat) fuel' file) (enumerate 1 lines)
  end.

(** Compat40Parser.execute 137-171 *)
Definition ncompat (f : fs) (legacy : path) (fuel : nat) : res (list nrule) :=
  do files <- compat_files f legacy;
  nconcat (fun x : string * string * string =>
    let '(service, argument, name) := x in
    let full := path_str (legacy ++ [name]) in
    do sa <- validate_service_and_argument (Some service) (Some argument);
    do fl <- open_file f (legacy ++ [name]);
    do rs <- nload_service fuel (compat_open f legacy) (fst sa) (snd sa) (fst fl) (snd fl);
    if String.eqb argument "*" then Ok rs
    else
      do r1 <- from_line_service (Some service) (Some argument) "@anyvm @anyvm deny" full;
      do r2 <- from_line_service (Some service) (Some argument) "@anyvm @adminvm deny" full;
      Ok (rs ++ [(r1, None); (r2, None)])) files.
Definition no_compat (fuel : nat) : res (list nrule) := Ok [].

(** FilePolicy 2062-2126 *)
Definition nload_policy (f : fs) (legacy : path) (compat : nat -> res (list nrule)) (fuel : nat) (dirs : list path) : res (list nrule) :=
  os_to_denied
    (do l <- select_files f dirs [];
     nconcat (fun x : path * string =>
       do ls <- read_lines f (fst x ++ [snd x]);
       nload_file fuel (file_loader f legacy (fst x)) compat (path_str (fst x ++ [snd x])) ls) (sort_by name_leb l)).

(** ** Without the numbers *)
Definition erase (x : res (list nrule)) : res (list rule) := rmap (map fst) x.
Lemma erase_bind {A} (x : res A) g : erase (do a <- x; g a) = do a <- x; erase (g a).
Proof. destruct x; reflexivity. Qed.
Lemma bind_ext {A B} (x : res A) (g h : A -> res B) : (forall a, g a = h a) -> bind x g = bind x h.
Proof. intros E. destruct x; cbn; auto. Qed.
Lemma erase_concat {A B} (g : A -> res (list nrule)) (h : B -> res (list rule)) : forall l l', Forall2 (fun a b => erase (g a) = h b) l l' ->
  erase (nconcat g l) = concatM h l'.
Proof.
  intros l l' F. induction F as [|a b l l' E F IH]; [reflexivity|]. cbn [nconcat concatM]. rewrite <- E, <- IH.
  unfold erase, rmap. destruct (g a) as [x|]; [|reflexivity]. cbn [bind]. destruct (nconcat g l) as [y|]; cbn [bind]; [|reflexivity].
  now rewrite map_app.
Qed.
Lemma same_list {A} (g : A -> res (list nrule)) (h : A -> res (list rule)) l : (forall a, erase (g a) = h a) ->
  erase (nconcat g l) = concatM h l.
Proof. intros E. apply erase_concat. induction l; constructor; auto. Qed.
Lemma enumerate_list (g : nat * string -> res (list nrule)) h : (forall n x, erase (g (n, x)) = h x) -> forall l n,
  erase (nconcat g (enumerate n l)) = concatM h l.
Proof. intros E l n. apply erase_concat. revert n. induction l as [|x l IH]; intros n; constructor; [apply E|apply IH]. Qed.

Lemma service_erase openf : forall fuel sv ar file ls, erase (nload_service fuel openf sv ar file ls) = load_service fuel openf sv ar file ls.
Proof.
  induction fuel as [|fuel IH]; intros sv ar file ls; [reflexivity|]. cbn [nload_service load_service].
  apply enumerate_list. intros n x. unfold nservice_line, service_line. cbn [fst snd].
  destruct (skip_line (strip x)); [reflexivity|]. destruct (starts "!" (compat_subst (strip x))).
  - destruct (split_ws _) as [|d ps]; [reflexivity|]. destruct (String.eqb d "!include"); [|reflexivity].
    destruct ps as [|p [|? ?]]; try reflexivity. rewrite erase_bind. apply bind_ext. intros sa.
    rewrite erase_bind. apply bind_ext. intros fl. apply IH.
  - destruct (from_line_service sv ar _ file); reflexivity.
Qed.
Lemma file_erase L compat : (forall fuel, erase (compat fuel) = ld_compat L fuel) ->
  forall fuel file ls, erase (nload_file fuel L compat file ls) = load_file fuel L file ls.
Proof.
  intros C. induction fuel as [|fuel IH]; intros file ls; [reflexivity|]. cbn [nload_file load_file].
  apply enumerate_list. intros n x. unfold nfile_line, file_line. cbn [fst snd].
  destruct (skip_line (strip x)); [reflexivity|]. destruct (starts "!" (strip x)).
  - destruct (split_ws (strip x)) as [|d ps]; [reflexivity|].
    destruct (String.eqb d "!include").
    { destruct ps as [|p [|? ?]]; try reflexivity. rewrite erase_bind. apply bind_ext. intros fl. apply IH. }
    destruct (String.eqb d "!include-dir").
    { destruct ps as [|p [|? ?]]; try reflexivity. rewrite erase_bind. apply bind_ext. intros fls.
      apply same_list. intros fl. rewrite erase_bind. apply bind_ext. intros l. apply IH. }
    destruct (String.eqb d "!include-service").
    { destruct ps as [|s [|a [|p [|? ?]]]]; try reflexivity. unfold include_service.
      rewrite erase_bind. apply bind_ext. intros sa. rewrite erase_bind. apply bind_ext. intros fl. apply service_erase. }
    destruct (String.eqb d "!compat-4.0"); [|reflexivity]. destruct ps; [apply C|reflexivity].
  - destruct (from_line (strip x) file); reflexivity.
Qed.
Lemma compat_erase f legacy fuel : erase (ncompat f legacy fuel) = compat_execute f legacy fuel.
Proof.
  unfold ncompat, compat_execute. rewrite erase_bind. apply bind_ext. intros files. apply same_list.
  intros [[sv ar] n]. rewrite erase_bind. apply bind_ext. intros sa. rewrite erase_bind. apply bind_ext. intros fl.
  rewrite erase_bind. rewrite <- service_erase.
  destruct (nload_service fuel (compat_open f legacy) (fst sa) (snd sa) (fst fl) (snd fl)) as [rs|]; [|reflexivity]. cbn [bind erase rmap].
  destruct (String.eqb ar "*"); [reflexivity|]. rewrite erase_bind. apply bind_ext. intros r1.
  rewrite erase_bind. apply bind_ext. intros r2. unfold erase, rmap. cbn [bind]. now rewrite map_app.
Qed.
Theorem lines_erase f legacy fuel dirs :
  erase (nload_policy f legacy (ncompat f legacy) fuel dirs) = load_policy f legacy fuel dirs.
Proof.
  unfold nload_policy, load_policy.
  assert (O : forall x, erase (os_to_denied x) = os_to_denied (erase x)) by (intros [?|[]]; reflexivity).
  rewrite O, erase_bind. f_equal. apply bind_ext. intros l. unfold load_files. apply same_list. intros x.
  rewrite erase_bind. apply bind_ext. intros ls. apply file_erase. intros fu. apply compat_erase.
Qed.
