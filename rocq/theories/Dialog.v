(** The dialog of the policy agent, qrexec/tools/qrexec_policy_agent.py, and what
    qrexec/tools/qrexec_policy_exec.py sends to it. Drawing, icons and the error bar are
    omitted: they decide nothing. *)
From Coq Require Import String Ascii List Bool Arith ZArith.
From Verif Require Import Base SysInfo Sanitize.
Import ListNotations.
Open Scope string_scope.
Open Scope list_scope.
Open Scope Z_scope.

(** The keys of icons, qrexec_policy_exec.py 77-93 *)
Definition icon_names (i : info) : list string :=
  map fst (filter (fun e => negb (starts "uuid:" (fst e))) i) ++
  map (fun e => "@dispvm:" +++ fst e)
    (filter (fun e => negb (starts "uuid:" (fst e) || negb (d_tmpl (snd e)))) i).

(** VMListModeler._create_entries, 86-106: from the text shown to the name in the API.
    [None]: ValueError *)
Definition display_name (name : string) : string :=
  if starts "@dispvm:" name then "Disposable VM (" +++ sdrop 8 name +++ ")" else name.
Definition vm_name (name : string) : string := if starts "@dispvm:" name then sdrop 8 name else name.
Fixpoint create_entries (names : list string) (entries : list (string * string)) : option (list (string * string)) :=
  match names with
  | [] => Some entries
  | n :: names' =>
      match sanitize_domain_name (vm_name n) true with
      | Ok _ => create_entries names' (dset entries (display_name n) n)
      | Err _ => None
      end
  end.

(** VMListModeler._get_valid_qube_name, 108-129, for a combo box with an entry: [active] is
    get_active_id (None or an empty one is falsy), [typed] is the text of the entry *)
Definition valid_entry (entries : list (string * string)) (whitelist : list string) (x : string) : bool :=
  match dget entries x with Some api => smem api whitelist | None => false end.
Definition get_valid_qube_name (entries : list (string * string)) (whitelist : list string)
    (active : option string) (typed : string) : option string :=
  let by_combo :=
    match active with
    | Some x => if String.eqb x "" then None else if valid_entry entries whitelist x then Some x else None
    | None => None
    end in
  match by_combo with
  | Some x => if String.eqb x "" then (if valid_entry entries whitelist typed then Some typed else None) else Some x
  | None => if valid_entry entries whitelist typed then Some typed else None
  end.

(** The window: the two helpers 269-348 and RPCConfirmationWindow 351-547 *)
Record window := mkWin {
  w_active : option string;           (* the combo box: get_active_id, *)
  w_typed : string;                   (* and the text of its entry *)
  w_timer_id : Z;                     (* _current_timer_id *)
  w_completed : bool;                 (* _timer_completed *)
  w_wanted : bool;                    (* _target_sensitivity *)
  w_ok_sensitive : bool;              (* the OK button *)
  w_target : option string;           (* _target_name *)
  w_confirmed : option bool;          (* _confirmed *)
  w_timers : list (Z * Z)             (* scheduled with GLib: the id and when it is due *)
}.
(** What happens, as GTK reports it *)
Inductive event :=
| StateEvent (focus_changed focused : bool)      (* window-state-event *)
| TimerFires (id : Z)
| Changed (active : option string) (typed : string)  (* the user selects or types *)
| Activate                                       (* Enter in the entry *)
| ClickOk
| ClickCancel
| Key (escape : bool).

(** wait_seconds is 1, in _new_focus_stealing_helper 538-539 *)
Definition WAIT_MS : Z := 1000.

(** FocusStealingHelper.request_sensitivity, 341-345 *)
Definition request_sensitivity (s : bool) (w : window) : window :=
  mkWin (w_active w) (w_typed w) (w_timer_id w) (w_completed w) s
    (if w_completed w || negb s then s else w_ok_sensitive w) (w_target w) (w_confirmed w) (w_timers w).
(** RPCConfirmationWindow._update_ok_button_sensitivity, 396-404 *)
Definition update_ok_button_sensitivity (data : option string) (w : window) : window :=
  request_sensitivity (match data with Some _ => true | None => false end)
    (mkWin (w_active w) (w_typed w) (w_timer_id w) (w_completed w) (w_wanted w) (w_ok_sensitive w) data
       (w_confirmed w) (w_timers w)).
(** VMListModeler._combo_change, 131-151 *)
Definition combo_change (entries : list (string * string)) (whitelist : list string) (w : window) : window :=
  let data := match get_valid_qube_name entries whitelist (w_active w) (w_typed w) with
              | Some name => dget entries name
              | None => None
              end in
  update_ok_button_sensitivity data w.
Definition select (entries : list (string * string)) (whitelist : list string) (active : option string) (typed : string)
    (w : window) : window :=
  combo_change entries whitelist
    (mkWin active typed (w_timer_id w) (w_completed w) (w_wanted w) (w_ok_sensitive w) (w_target w) (w_confirmed w) (w_timers w)).
(** FocusStealingHelper._window_changed_focus, 315-322; GtkOneTimerHelper._timer_schedule,
    292-298; [now] in milliseconds *)
Definition window_changed_focus (now : Z) (focused : bool) (w : window) : window :=
  let id := w_timer_id w + 1 in
  mkWin (w_active w) (w_typed w) id false (w_wanted w) false (w_target w) (w_confirmed w)
    (if focused then (id, now + WAIT_MS) :: w_timers w else w_timers w).
(** GtkOneTimerHelper._timer_check_run, 282-287; FocusStealingHelper._timer_run, 338-339. The
    callback returns None: GLib calls it only once. *)
Definition timer_check_run (id : Z) (w : window) : window :=
  let timers := filter (fun t => negb (fst t =? id)) (w_timers w) in
  if w_timer_id w =? id then
    mkWin (w_active w) (w_typed w) (w_timer_id w) true (w_wanted w) (w_wanted w) (w_target w) (w_confirmed w) timers
  else
    mkWin (w_active w) (w_typed w) (w_timer_id w) (w_completed w) (w_wanted w) (w_ok_sensitive w) (w_target w) (w_confirmed w) timers.
(** _clicked_ok 368-375, _clicked_cancel 377-384, _key_pressed 386-394: _close only asks GTK
    to close the window *)
Definition set_confirmed (b : bool) (w : window) : window :=
  mkWin (w_active w) (w_typed w) (w_timer_id w) (w_completed w) (w_wanted w) (w_ok_sensitive w) (w_target w) (Some b) (w_timers w).
Definition clicked_ok (w : window) : window := if w_completed w then set_confirmed true w else w.
Definition clicked_cancel (w : window) : window := if w_completed w then set_confirmed false w else w.

Definition step (entries : list (string * string)) (whitelist : list string) (now : Z) (ev : event) (w : window) : window :=
  match ev with
  | StateEvent changed focused => if changed then window_changed_focus now focused w else w   (* 324-336 *)
  | TimerFires id => timer_check_run id w
  | Changed active typed => select entries whitelist active typed w
  | Activate =>                                                                               (* _entry_activate, 153-157 *)
      match get_valid_qube_name entries whitelist (w_active w) (w_typed w) with
      | Some _ => clicked_ok w
      | None => w
      end
  | ClickOk => clicked_ok w
  | ClickCancel => clicked_cancel w
  | Key escape => if escape then clicked_cancel w else w
  end.

(** What policy.Ask gets *)
Record params := mkParams {
  p_source : string; p_service : string; p_argument : string;
  p_targets : list string; p_default : string; p_icons : list string
}.
(** RPCConfirmationWindow.__init__, 453-511, and _set_initial_target, 420-441: the rows of the
    list are those of 166-181. [None]: an exception. *)
Definition in_list (entries : list (string * string)) (whitelist : list string) (target : string) : option string :=
  find (fun k => match dget entries k with
                 | Some api => smem api whitelist && String.eqb api target
                 | None => false
                 end) (map fst entries).
Definition open_window (p : params) : option (list (string * string) * window) :=
  match sanitize_domain_name (p_source p) true, sanitize_service_name (p_service p) true with
  | Ok _, Ok _ =>
      match create_entries (p_icons p) [] with
      | None => None
      | Some entries =>
          let w0 := combo_change entries (p_targets p) (mkWin None "" 0 false false false None None []) in
          match dget entries (p_source p) with
          | None => None                                        (* apply_icon, 254-266 *)
          | Some _ =>
              let w1 :=
                if String.eqb (p_default p) "" then w0                 (* default_target or None, 609 *)
                else if String.eqb (p_default p) (p_source p) then w0  (* an error is shown *)
                else match in_list entries (p_targets p) (p_default p) with
                     | Some d => select entries (p_targets p) (Some d) d w0
                     | None => w0                                      (* an error is shown *)
                     end in
              Some (entries, w1)
          end
      end
  | _, _ => None
  end.
(** confirm_rpc, 541-547, and handle_ask, 592-614, when the window is closed in state [w] *)
Definition answer (w : window) : string :=
  match w_confirmed w, w_target w with
  | Some true, Some t => if String.eqb t "" then "deny" else "allow:" +++ t
  | _, _ => "deny"
  end.

(** GLib.markup_escape_text, for ASCII text: the five special characters and the control
    characters but tab, newline and carriage return *)
Definition hex_digit (n : nat) : ascii := ascii_of_nat (if (n <? 10)%nat then 48 + n else 87 + n)%nat.
Definition escape_char (c : ascii) : string :=
  let n := nat_of_ascii c in
  if Ascii.eqb c "&" then "&amp;"
  else if Ascii.eqb c "<" then "&lt;"
  else if Ascii.eqb c ">" then "&gt;"
  else if Ascii.eqb c "'" then "&#39;"
  else if Ascii.eqb c """" then "&quot;"
  else if ((1 <=? n) && (n <=? 8) || (11 <=? n) && (n <=? 12) || (14 <=? n) && (n <=? 31) || (n =? 127))%nat
  then "&#x" +++ (if (n <? 16)%nat then "" else str1 (hex_digit (n / 16))) +++ str1 (hex_digit (n mod 16)) +++ ";"
  else str1 c.
Fixpoint markup_escape_text (s : string) : string :=
  match s with EmptyString => "" | String c s' => escape_char c +++ markup_escape_text s' end.
(** escape_and_format_rpc_text, 561-574 *)
Definition escape_and_format_rpc_text (service argument : string) : string :=
  let service := markup_escape_text service in
  let argument := markup_escape_text argument in
  (match split1 "." service with
   | Some (domain, name) =>
       if String.eqb name "" then "<b>" +++ service +++ "</b>" else domain +++ ".<b>" +++ name +++ "</b>"
   | None => "<b>" +++ service +++ "</b>"
   end) +++ (if String.eqb argument "+" then "" else argument).
(** notify, 628-663: the body. [None]: the assertion in 623 *)
Definition notify_body (resolution service argument source target : string) : option string :=
  let rpc := markup_escape_text (if String.eqb argument "+" then service else service +++ argument) in
  let src := markup_escape_text source in
  let dst := markup_escape_text target in
  if String.eqb resolution "allow" then Some ("Allowed <b>" +++ rpc +++ "</b> from <b>" +++ src +++ "</b> to <b>" +++ dst +++ "</b>")
  else if String.eqb resolution "deny" then Some ("Denied <b>" +++ rpc +++ "</b> from <b>" +++ src +++ "</b> to <b>" +++ dst +++ "</b>")
  else if String.eqb resolution "fail" then Some ("Failed to execute <b>" +++ rpc +++ "</b> (from <b>" +++ src +++ "</b> to <b>" +++ dst +++ "</b>)")
  else None.
