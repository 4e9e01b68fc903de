(** C100: calls from Python *)
From Coq Require Import String Ascii List Bool Arith Lia.
From Verif Require Import Base FileSys SpecUtf8 Utf8Proofs ClientTools PyClient.
Import ListNotations.
Open Scope string_scope.
Open Scope list_scope.

(** the standard input that a caller asks for *)
Definition asked_input (i : input) (s : source) : Prop :=
  match i with
  | NoInput => s = Empty
  | Bytes x => s = Data x
  | Text x => s = Data x
  | File fd => s = FromFile fd
  end.
(** the outcome that the end of a program means *)
Definition outcome (status : nat) (output : string) (r : result) : Prop :=
  (status = 0 /\ utf8_text output /\ r = Returned output) \/
  (status = 0 /\ ~ utf8_text output /\ r = Raised) \/
  (status <> 0 /\ r = CalledProcessError status).
Lemma finish_outcome o : outcome (fst o) (snd o) (finish o).
Proof.
  destruct o as [st out]. unfold outcome, finish. cbn [fst snd]. destruct (Nat.eqb_spec st 0) as [->|]; [|right; right; auto].
  destruct (utf8_valid out) eqn:U; [left; apply utf8_spec in U; auto|right; left]. repeat split; auto. intros H. apply utf8_spec in H. congruence.
Qed.
Lemma outcome_fun st out r r' : outcome st out r -> outcome st out r' -> r = r'.
Proof. intros [(A & B & C)|[(A & B & C)|(A & C)]] [(A' & B' & C')|[(A' & B' & C')|(A' & C')]]; try congruence; contradiction. Qed.

(** a call runs the client program once, with the input that was given and its error messages kept away from those of the caller, and returns all that it
    writes if it succeeds; it fails if the program does *)
Theorem C100_call run in_dom0 dest name arg i :
  (make_command in_dom0 dest name arg = None -> call run in_dom0 dest name arg i = (None, Raised)) /\
  forall argv, make_command in_dom0 dest name arg = Some argv ->
    exists s r, call run in_dom0 dest name arg i = (Some (mkRan argv s true), r) /\ asked_input i s /\
      outcome (fst (run (mkRan argv s true))) (snd (run (mkRan argv s true))) r.
Proof.
  unfold call. split; [intros ->; reflexivity|]. intros argv ->.
  destruct i as [|x|x|fd]; cbn; do 2 eexists; (split; [reflexivity|]); (split; [reflexivity|]); apply finish_outcome.
Qed.
(** the asynchronous version does the same, if the input is bytes or text; the full claim, for
    every input, is refuted below *)
Theorem C100_async_partial run in_dom0 dest name arg i : (exists x, i = Bytes x \/ i = Text x) ->
  call_async run in_dom0 dest name arg i = call run in_dom0 dest name arg i.
Proof.
  intros (x & H). unfold call, call_async. destruct (make_command in_dom0 dest name arg) as [argv|]; [|reflexivity].
  destruct H as [-> | ->]; reflexivity.
Qed.
(** without input, or with a file, it never runs anything *)
Theorem C100_async_refuted run in_dom0 dest name arg i : (i = NoInput \/ exists fd, i = File fd) ->
  call_async run in_dom0 dest name arg i = (None, Raised).
Proof.
  intros H. unfold call_async. destruct (make_command in_dom0 dest name arg) as [argv|]; [|reflexivity]. destruct H as [-> |[fd ->]]; reflexivity.
Qed.

Example ex_call : call (fun r => (0, "ok")) (Some true) "work" "qubes.Test" (Some "x") (Text "hello") =
  (Some (mkRan ["/usr/bin/qrexec-client"; "-d"; "work"; "DEFAULT:QUBESRPC qubes.Test+x dom0"] (Data "hello") true), Returned "ok").
Proof. reflexivity. Qed.
Example ex_fails : call (fun r => (126, "ok")) (Some false) "work" "qubes.Test" None NoInput =
  (Some (mkRan ["/usr/bin/qrexec-client-vm"; "--"; "work"; "qubes.Test"] Empty true), CalledProcessError 126).
Proof. reflexivity. Qed.
