(** Specification vocabulary: the dialog over time, and text with markup *)
From Coq Require Import String Ascii List Bool Arith ZArith.
From Verif Require Import Base Dialog.
Import ListNotations.
Open Scope string_scope.
Open Scope list_scope.
Open Scope Z_scope.

(** What happens to a dialog, with the times in milliseconds. Time does not go back, and a
    timer goes off only when it has been set, once, and not early. *)
Inductive history (p : params) (entries : list (string * string)) : list (Z * event) -> Z -> window -> Prop :=
| history_start t w : open_window p = Some (entries, w) -> history p entries [] t w
| history_event h t w t' ev : history p entries h t w -> t <= t' ->
    (forall id, ev = TimerFires id -> exists due, In (id, due) (w_timers w) /\ due <= t') ->
    history p entries (h ++ [(t', ev)]) t' (step entries (p_targets p) t' ev w).

(** The window has had the focus since the time [t0] *)
Definition focused_since (h : list (Z * event)) (t0 : Z) : Prop :=
  exists h1 h2, h = h1 ++ (t0, StateEvent true true) :: h2 /\
    forall t b, ~ In (t, StateEvent true b) h2.
(** The user does something that would answer the question *)
Definition answers (ev : event) : Prop := ev = ClickOk \/ ev = Activate \/ ev = ClickCancel \/ ev = Key true.
Definition accepts (ev : event) : Prop := ev = ClickOk \/ ev = Activate.

(** How a qube or a new disposable is shown *)
Definition shown_as (api : string) (text : string) : Prop :=
  (exists base, api = "@dispvm:" +++ base /\ text = "Disposable VM (" +++ base +++ ")") \/
  (forall base, api <> "@dispvm:" +++ base) /\ text = api.

(** What is displayed for markup: characters, bold or not. [None]: not valid markup. Tags other
    than <b> are not expected. *)
Fixpoint number (base : nat) (digits : string) (acc : nat) : option nat :=
  match digits with
  | "" => Some acc
  | String c ds =>
      match index 0 (str1 c) "0123456789abcdef" with
      | Some v => if (v <? base)%nat then number base ds (base * acc + v) else None
      | None => None
      end
  end.
Definition entity (name : string) : option ascii :=
  if String.eqb name "amp" then Some "&"%char
  else if String.eqb name "lt" then Some "<"%char
  else if String.eqb name "gt" then Some ">"%char
  else if String.eqb name "quot" then Some """"%char
  else if String.eqb name "apos" then Some "'"%char
  else match name with
       | String "#" (String "x" ds) => option_map ascii_of_nat (number 16 ds 0)
       | String "#" ds => option_map ascii_of_nat (number 10 ds 0)
       | _ => None
       end.
(** [inside]: the tag or entity being read, without its first character *)
Inductive inside := Text | Tag (s : string) | Entity (s : string).
Fixpoint display (bold : bool) (at_ : inside) (markup : string) : option (list (bool * ascii)) :=
  match markup, at_ with
  | "", Text => if bold then None else Some []
  | "", _ => None
  | String c m, Text =>
      if Ascii.eqb c "<" then display bold (Tag "") m
      else if Ascii.eqb c "&" then display bold (Entity "") m
      else option_map (cons (bold, c)) (display bold Text m)
  | String c m, Tag s =>
      if Ascii.eqb c ">" then
        if String.eqb s "b" then (if bold then None else display true Text m)
        else if String.eqb s "/b" then (if bold then display false Text m else None)
        else None
      else display bold (Tag (s +++ str1 c)) m
  | String c m, Entity s =>
      if Ascii.eqb c ";" then
        match entity s with
        | Some a => option_map (cons (bold, a)) (display bold Text m)
        | None => None
        end
      else display bold (Entity (s +++ str1 c)) m
  end.
Definition displayed (markup : string) : option (list (bool * ascii)) := display false Text markup.
Definition plain (s : string) : list (bool * ascii) := map (pair false) (list_ascii_of_string s).
Definition strong (s : string) : list (bool * ascii) := map (pair true) (list_ascii_of_string s).
