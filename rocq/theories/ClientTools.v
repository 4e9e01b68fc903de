(** The programs that make calls: qrexec-client-vm (agent/qrexec-client-vm.c), qrexec-client
    (daemon/qrexec-client.c) and the Python module qrexec/client.py.

    Not modelled: failures of malloc, the messages printed, environment variables
    (POSIXLY_CORRECT), --socket-dir for the programs in dom0. *)
From Coq Require Import String Ascii List Bool Arith ZArith.
From Verif Require Import Base.
From Verif Require DaemonPolicy Exec.
Import ListNotations.
Open Scope string_scope.
Open Scope list_scope.
Open Scope Z_scope.

(** ** getopt_long of the GNU C library *)
(** a short option: does it take an argument; a long option: the same, and its value. The value
    of a short option is itself; [?] is a mistake. *)
Definition shorts := list (ascii * bool).
Definition longs := list (string * (bool * string)).
Definition found := (string * option string)%type.
Fixpoint short_takes (c : ascii) (l : shorts) : option bool :=
  match l with [] => None | (d, b) :: l' => if Ascii.eqb c d then Some b else short_takes c l' end.
(** the letters after a dash; the second result is an option that still needs its argument *)
Fixpoint cluster (l : shorts) (s : string) : list found * option string :=
  match s with
  | EmptyString => ([], None)
  | String c s' =>
      match short_takes c l with
      | None => let (fs, n) := cluster l s' in (("?", None) :: fs, n)
      | Some false => let (fs, n) := cluster l s' in ((str1 c, None) :: fs, n)
      | Some true => match s' with EmptyString => ([], Some (str1 c)) | _ => ([(str1 c, Some s')], None) end
      end
  end.
(** a long option may be abbreviated if it stays clear what is meant *)
Definition same_opt (a b : bool * string) : bool := Bool.eqb (fst a) (fst b) && String.eqb (snd a) (snd b).
Definition find_long (l : longs) (name : string) : option (bool * string) :=
  match dget l name with
  | Some o => Some o
  | None =>
      match filter (fun x => starts name (fst x)) l with
      | [] => None
      | x :: xs => if forallb (fun y => same_opt (snd x) (snd y)) xs then Some (snd x) else None
      end
  end.
(** [plus]: the options end at the first other argument; otherwise the others are collected *)
Fixpoint getopt (plus : bool) (sh : shorts) (lo : longs) (argv : list string) : list found * list string :=
  match argv with
  | [] => ([], [])
  | a :: rest =>
      if String.eqb a "--" then ([], rest)
      else if starts "--" a then
        let (name, val) := match split1 "=" (sdrop 2 a) with Some (n, v) => (n, Some v) | None => (sdrop 2 a, None) end in
        match find_long lo name with
        | None => let (fs, ps) := getopt plus sh lo rest in (("?", None) :: fs, ps)
        | Some (false, o) =>
            let (fs, ps) := getopt plus sh lo rest in
            ((match val with Some _ => ("?", None) | None => (o, None) end) :: fs, ps)
        | Some (true, o) =>
            match val, rest with
            | Some v, _ => let (fs, ps) := getopt plus sh lo rest in ((o, Some v) :: fs, ps)
            | None, [] => ([("?", None)], [])
            | None, v :: rest' => let (fs, ps) := getopt plus sh lo rest' in ((o, Some v) :: fs, ps)
            end
        end
      else if starts "-" a && negb (String.eqb a "-") then
        let (fs0, need) := cluster sh (sdrop 1 a) in
        match need, rest with
        | None, _ => let (fs, ps) := getopt plus sh lo rest in (fs0 ++ fs, ps)
        | Some _, [] => (fs0 ++ [("?", None)], [])
        | Some o, v :: rest' => let (fs, ps) := getopt plus sh lo rest' in (fs0 ++ (o, Some v) :: fs, ps)
        end
      else if plus then ([], a :: rest)
      else let (fs, ps) := getopt plus sh lo rest in (fs, a :: ps)
  end.

(** strtol and strtoul with base 0, where the text has to begin with a digit and to end after
    the number: parse_int of qrexec-client.c 118-134, and qrexec-client-vm.c 157-176. Numbers
    above INT_MAX are refused. *)
Definition digit_val (c : ascii) : option Z :=
  let n := Z.of_nat (nat_of_ascii c) in
  if (48 <=? n) && (n <=? 57) then Some (n - 48)
  else if (97 <=? n) && (n <=? 102) then Some (n - 87)
  else if (65 <=? n) && (n <=? 70) then Some (n - 55) else None.
Fixpoint digits (base : Z) (acc : Z) (s : string) : option Z :=
  match s with
  | EmptyString => Some acc
  | String c s' =>
      match digit_val c with
      | Some d => if d <? base then digits base (base * acc + d) s' else None
      | None => None
      end
  end.
Definition parse_int (s : string) : option Z :=
  match s with
  | EmptyString => None
  | String c s' =>
      if negb (Exec.digit c) then None
      else
        let v :=
          if Ascii.eqb c "0" then
            match s' with
            | String x (String d r) => if Ascii.eqb x "x" || Ascii.eqb x "X" then digits 16 0 (String d r) else digits 8 0 s'
            | _ => digits 8 0 s'
            end
          else digits 10 0 s in
        match v with Some n => if n <=? 2147483647 then Some n else None | None => None end
  end.

(** ** qrexec-client-vm *)
Definition vm_shorts : shorts := [("t"%char, false); ("T"%char, false); ("a"%char, true); ("p"%char, true); ("s"%char, true); ("h"%char, false)].
Definition vm_longs : longs := [
  ("buffer-size", (true, "b")); ("filter-escape-chars-stdout", (false, "t")); ("filter-escape-chars-stderr", (false, "T"));
  ("no-filter-escape-chars-stdout", (false, "no-t")); ("no-filter-escape-chars-stderr", (false, "no-T"));
  ("agent-socket", (true, "a")); ("prefix-data", (true, "p")); ("use-stdin-socket", (false, "u"));
  ("source-qube", (true, "s")); ("help", (false, "h"))].
Definition AGENT_TRIGGER_PATH := "/var/run/qubes/qrexec-agent".
Record vm_opts := mkVm {
  v_buffer : Z; v_out : option bool; v_err : option bool; v_path : string;
  v_prefix : option string; v_source : option string; v_socket : bool }.
Definition vm_start : vm_opts := mkVm 0 None None AGENT_TRIGGER_PATH None None false.
(** one turn of the loop, 150-232: the new state, or the exit status. [stdin_stream]: the
    standard input is a stream socket. *)
Definition vm_option (stdin_stream : bool) (o : found) (v : vm_opts) : vm_opts + Z :=
  let (k, arg) := o in
  let a := match arg with Some a => a | None => "" end in
  if String.eqb k "b" then
    match parse_int a with
    | Some n => inl (mkVm n (v_out v) (v_err v) (v_path v) (v_prefix v) (v_source v) (v_socket v))
    | None => inr 1
    end
  else if String.eqb k "t" then inl (mkVm (v_buffer v) (Some true) (v_err v) (v_path v) (v_prefix v) (v_source v) (v_socket v))
  else if String.eqb k "T" then inl (mkVm (v_buffer v) (v_out v) (Some true) (v_path v) (v_prefix v) (v_source v) (v_socket v))
  else if String.eqb k "h" then inr 0
  else if String.eqb k "p" then
    match v_prefix v with
    | Some _ => inr 2
    | None => inl (mkVm (v_buffer v) (v_out v) (v_err v) (v_path v) (Some a) (v_source v) (v_socket v))
    end
  else if String.eqb k "s" then
    match v_source v with
    | Some _ => inr 2
    | None => inl (mkVm (v_buffer v) (v_out v) (v_err v) (v_path v) (v_prefix v) (Some a) (v_socket v))
    end
  else if String.eqb k "no-t" then inl (mkVm (v_buffer v) (Some false) (v_err v) (v_path v) (v_prefix v) (v_source v) (v_socket v))
  else if String.eqb k "no-T" then inl (mkVm (v_buffer v) (v_out v) (Some false) (v_path v) (v_prefix v) (v_source v) (v_socket v))
  else if String.eqb k "a" then inl (mkVm (v_buffer v) (v_out v) (v_err v) a (v_prefix v) (v_source v) (v_socket v))
  else if String.eqb k "u" then
    if v_socket v || negb stdin_stream then inr 2
    else inl (mkVm (v_buffer v) (v_out v) (v_err v) (v_path v) (v_prefix v) (v_source v) true)
  else inr 2.
Fixpoint options {S} (step : found -> S -> S + Z) (os : list found) (s : S) : S + Z :=
  match os with
  | [] => inl s
  | o :: os' => match step o s with inl s' => options step os' s' | inr n => inr n end
  end.
(** convert_target_name_keyword 84-92 *)
Fixpoint convert_target (s : string) : string :=
  match s with
  | EmptyString => EmptyString
  | String c s' => String (if Ascii.eqb c "$" then "@"%char else c) (convert_target s')
  end.
(** a field of [n] bytes that was cleared and written with strncpy(field, s, n - 1) *)
Fixpoint nuls (n : nat) : string := match n with O => "" | S n' => String NUL (nuls n') end.
Definition field (n : nat) (s : string) : string :=
  let t := stake (n - 1) s in t +++ nuls (n - String.length t).
(** What is sent to the agent, 255-285: header and body *)
Definition MSG_TRIGGER_SERVICE4 := 531.
Definition vm_request (source : option string) (target service : string) : (Z * Z) * string :=
  ((MSG_TRIGGER_SERVICE4, 160 + Z.of_nat (String.length service) + 1),
   field 64 (match source with Some s => s | None => "" end) +++ field 64 (convert_target target) +++
   field 32 "SOCKET" +++ service +++ str1 NUL).
(** How the data is handled afterwards, 300-345: the local program with its arguments (None:
    standard input and output), filters, prefix, size of the buffer, one socket for both *)
Record vm_how := mkHow {
  hw_local : option (list string); hw_out : bool; hw_err : bool; hw_prefix : option string; hw_buffer : Z; hw_socket : bool }.
Inductive vm_outcome := VExit (status : Z) | VAsk (path : string) (hdr : Z * Z) (body : string) (how : vm_how).
(** main 130-285; [tty1], [tty2]: standard output and error are terminals *)
Definition vm_main (tty1 tty2 stdin_stream : bool) (argv : list string) : vm_outcome :=
  let (os, ps) := getopt true vm_shorts vm_longs argv in
  match options (vm_option stdin_stream) os vm_start with
  | inr n => VExit n
  | inl v =>
      match ps with
      | target :: service :: local =>
          let run := match local with [] => None | _ => Some local end in
          match run, v_socket v with
          | Some _, true => VExit 2
          | _, _ =>
              let out := match v_out v with Some b => b | None => match run with None => tty1 | Some _ => false end end in
              let err := match v_err v with Some b => b | None => tty2 end in
              let (hdr, body) := vm_request (v_source v) target service in
              VAsk (v_path v) hdr body (mkHow run out err (v_prefix v) (v_buffer v) (v_socket v))
          end
      | _ => VExit 2
      end
  end.
(** 286-296: the answer of the agent, what one read(2) of 8 bytes gives (None: an error) *)
Inductive vm_answer := VConnect (domain port : string) | VEnds (status : Z).
Definition vm_read (got : option string) : vm_answer :=
  match got with
  | Some EmptyString => VEnds 126
  | Some s => if (String.length s =? 8)%nat then VConnect (stake 4 s) (sdrop 4 s) else VEnds 1
  | None => VEnds 1
  end.

(** ** qrexec-client *)
Definition cl_shorts : shorts := [
  ("h"%char, false); ("d"%char, true); ("l"%char, true); ("e"%char, false); ("E"%char, false); ("c"%char, true); ("p"%char, true);
  ("t"%char, false); ("T"%char, false); ("w"%char, true); ("W"%char, false); ("k"%char, false)].
Definition cl_longs : longs := [
  ("help", (false, "h")); ("socket-dir", (true, "dir")); ("no-exit-code", (false, "E")); ("prefix-data", (true, "p"));
  ("use-stdin-socket", (false, "u"))].
(** parse_connect 136-163 *)
Definition parse_connect (s : string) : option (string * string * Z) :=
  match split1 "," s with
  | None => None
  | Some (id, r) =>
      if (32 <=? String.length id)%nat then None
      else match split1 "," r with
           | None => None
           | Some (name, n) => match parse_int n with Some d => Some (id, name, d) | None => None end
           end
  end.
Record cl_opts := mkCl {
  c_dom : option string; c_local : option string; c_just : bool; c_code : bool; c_conn : option (string * string * Z);
  c_prefix : option string; c_out : bool; c_err : bool; c_timeout : Z; c_wait : bool; c_socket : bool; c_kill : bool }.
Definition cl_start : cl_opts := mkCl None None false true None None false false 10 false false false.
(** one turn of the loop, 192-266 *)
Definition cl_option (stdin_stream : bool) (o : found) (c : cl_opts) : cl_opts + Z :=
  let (k, arg) := o in
  let a := match arg with Some a => a | None => "" end in
  let '(mkCl dom local just code conn prefix out err timeout wait socket kill) := c in
  if String.eqb k "d" then inl (mkCl (Some a) local just code conn prefix out err timeout wait socket kill)
  else if String.eqb k "l" then inl (mkCl dom (Some a) just code conn prefix out err timeout wait socket kill)
  else if String.eqb k "e" then inl (mkCl dom local true code conn prefix out err timeout wait socket kill)
  else if String.eqb k "E" then inl (mkCl dom local just false conn prefix out err timeout wait socket kill)
  else if String.eqb k "c" then
    match conn with
    | Some _ => inr 1
    | None =>
        match parse_connect a with
        | None => inr 1
        | Some (id, name, n) =>
            if DaemonPolicy.target_refers_to_dom0 name || (n =? 0) then inr 1
            else inl (mkCl dom local just code (Some (id, name, n)) prefix out err timeout wait socket kill)
        end
    end
  else if String.eqb k "p" then
    match prefix with Some _ => inr 2 | None => inl (mkCl dom local just code conn (Some a) out err timeout wait socket kill) end
  else if String.eqb k "t" then inl (mkCl dom local just code conn prefix true err timeout wait socket kill)
  else if String.eqb k "T" then inl (mkCl dom local just code conn prefix out true timeout wait socket kill)
  else if String.eqb k "w" then
    match parse_int a with Some n => inl (mkCl dom local just code conn prefix out err n wait socket kill) | None => inr 1 end
  else if String.eqb k "W" then inl (mkCl dom local just code conn prefix out err timeout true socket kill)
  else if String.eqb k "dir" then inl c
  else if String.eqb k "u" then
    if socket || negb stdin_stream then inr 2 else inl (mkCl dom local just code conn prefix out err timeout wait true kill)
  else if String.eqb k "k" then inl (mkCl dom local just code conn prefix out err timeout wait socket true)
  else inr 0.
(** What it does then *)
Inductive cl_outcome :=
| ClExit (status : Z)
| ClToDom0 (id : string) (domid : Z) (name command : string) (timeout : Z) (code : bool) (prefix : option string)
    (* run_qrexec_to_dom0: a call of another qube is run here *)
| ClRunService (path : string) (command : string)
    (* a call of dom0 to dom0: the program is executed with exec_qubes_rpc2 *)
| ClExecuteVm (target : string) (domid : Z) (command id : string) (wait uuid : bool)
    (* qrexec_execute_vm, without -e *)
| ClConnect (target : string) (type : Z) (command : string) (local : option string) (code out err : bool)
    (prefix : option string) (timeout : Z) (socket kill : bool)
    (* the command is sent to the daemon of the target, and this program handles the data *).
(** main 268-421. [fs], [path]: the files and the directories for services in dom0;
    [session]: the configuration of the service can be loaded and a process to wait for the
    session be forked. *)
Definition cl_main (fs : Exec.filesystem) (path : string) (session stdin_stream : bool) (argv : list string) : cl_outcome :=
  let (os, ps) := getopt false cl_shorts cl_longs argv in
  match options (cl_option stdin_stream) os cl_start with
  | inr n => ClExit n
  | inl c =>
      match ps, c_dom c with
      | command :: _, Some dom =>
          if match c_local c, c_conn c with
             | Some _, Some _ => true
             | Some _, None | None, Some _ => c_just c
             | None, None => false
             end then ClExit 1
          else if match c_local c with Some _ => c_socket c | None => false end then ClExit 1
          else if DaemonPolicy.target_refers_to_dom0 dom then
            match c_conn c with
            | Some (id, name, n) =>
                if String.eqb id "" then ClExit 1
                else ClToDom0 (stake 31 id) n name command (c_timeout c) (c_code c) (c_prefix c)
            | None =>
                match c_local c with
                | Some _ => ClExit 125
                | None =>
                    if negb (starts "DEFAULT:" command) then ClExit 125
                    else match Exec.parse_qubes_rpc_command (sdrop 8 command) false with
                         | None => ClExit 125
                         | Some p =>
                             match Exec.pc_descriptor p, Exec.pc_name p with
                             | Some d, Some n =>
                                 if negb session then ClExit 125
                                 else match Exec.find_qrexec_service fs path false false d n (Exec.pc_arg p) (Exec.pc_command p) with
                                      | Exec.RunProgram prog => ClRunService prog (Exec.pc_command p)
                                      | Exec.ServiceAbsent => ClExit 127
                                      | _ => ClExit 125
                                      end
                             | _, _ => ClExit 125
                             end
                         end
                end
            end
          else
            match c_conn c with
            | Some (id, name, n) => ClExecuteVm dom n command id (c_wait c) (starts "uuid:" dom)
            | None =>
                ClConnect dom (if c_just c then 513 else 512) command (c_local c) (c_code c) (c_out c) (c_err c)
                  (c_prefix c) (c_timeout c) (c_socket c) (c_kill c)
            end
      | _, _ => ClExit 1
      end
  end.

(** ** qrexec/client.py make_command 77-101: the program and its arguments; None: an exception
    (AssertionError, NotImplementedError). [in_dom0]: which of the programs is there, dom0's
    first; None: neither. *)
Definition make_command (in_dom0 : option bool) (dest rpcname : string) (arg : option string) : option (list string) :=
  if has_char "+" rpcname || has_char " " rpcname then None
  else if match arg with Some a => has_char " " a | None => false end then None
  else
    let name := match arg with Some a => rpcname +++ "+" +++ a | None => rpcname end in
    match in_dom0 with
    | Some true => Some ["/usr/bin/qrexec-client"; "-d"; dest; "DEFAULT:QUBESRPC " +++ name +++ " dom0"]
    | Some false => Some ["/usr/bin/qrexec-client-vm"; "--"; dest; name]
    | None => None
    end.
